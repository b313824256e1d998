(** Preservation of configuration and accounting by the state changes of one presale. *)
From Coq Require Import Lia.
From Verif Require Import Base Math State Handlers Token World Spec Tactics Sums Arith
  TokenFacts Inv.

(** * Terms *)

Definition reg_terms (r : registry) : Z * Z * Z * Z :=
  (r_supply r, r_min_cap r, r_max_cap r, r_fee_bps r).

(** All fields fixed at creation, except the timing that an early end moves. *)
Record same_terms (p p' : presale) : Prop := {
  t_owner_eq : p_owner p' = p_owner p;
  t_qmint_eq : p_qmint p' = p_qmint p;
  t_bmint_eq : p_bmint p' = p_bmint p;
  t_bvault_eq : p_bvault p' = p_bvault p;
  t_qvault_eq : p_qvault p' = p_qvault p;
  t_base_eq : p_base p' = p_base p;
  t_mode_eq : p_mode p' = p_mode p;
  t_wl_eq : p_wl p' = p_wl p;
  t_max_eq : p_max_cap p' = p_max_cap p;
  t_min_eq : p_min_cap p' = p_min_cap p;
  t_start_eq : p_start p' = p_start p;
  t_supply_eq : p_supply p' = p_supply p;
  t_created_eq : p_created p' = p_created p;
  t_lock_eq : p_lock p' = p_lock p;
  t_vest_eq : p_vest p' = p_vest p;
  t_bprog_eq : p_bprog p' = p_bprog p;
  t_qprog_eq : p_qprog p' = p_qprog p;
  t_nreg_eq : p_nreg p' = p_nreg p;
  t_unsold_eq : p_unsold p' = p_unsold p;
  t_bps_eq : p_bps p' = p_bps p;
  t_raw0_eq : p_raw0 p' = p_raw0 p;
  t_raw1_eq : p_raw1 p' = p_raw1 p;
  t_raw2_eq : p_raw2 p' = p_raw2 p;
  t_regs_eq : map reg_terms (p_regs p') = map reg_terms (p_regs p)
}.
Record same_timing (p p' : presale) : Prop := {
  t_end_eq : p_end p' = p_end p;
  t_imm_eq : p_imm_ts p' = p_imm_ts p;
  t_vs_eq : p_vs p' = p_vs p;
  t_ve_eq : p_ve p' = p_ve p
}.

Lemma same_terms_refl p : same_terms p p.
Proof. split; reflexivity. Qed.
Lemma same_timing_refl p : same_timing p p.
Proof. split; reflexivity. Qed.
Lemma same_terms_trans p1 p2 p3 : same_terms p1 p2 -> same_terms p2 p3 -> same_terms p1 p3.
Proof. intros [] []. split; congruence. Qed.
Lemma same_timing_trans p1 p2 p3 : same_timing p1 p2 -> same_timing p2 p3 -> same_timing p1 p3.
Proof. intros [] []. split; congruence. Qed.

Lemma map_terms_set l j r r' :
  l !! j = Some r -> reg_terms r' = reg_terms r ->
  map reg_terms (<[j := r']> l) = map reg_terms l.
Proof.
  intros Hr Ht.
  transitivity (<[j := reg_terms r']> (map reg_terms l)); [apply list_fmap_insert|].
  apply list_insert_id. rewrite Ht. rewrite list_lookup_fmap, Hr. reflexivity.
Qed.

Lemma same_terms_lookup p p' i r' :
  same_terms p p' -> p_regs p' !! i = Some r' ->
  exists r, p_regs p !! i = Some r /\ reg_terms r' = reg_terms r.
Proof.
  intros Ht Hr. pose proof (f_equal (fun l => l !! i) (t_regs_eq p p' Ht)) as Hm. cbv beta in Hm.
  change (map reg_terms (p_regs p')) with (reg_terms <$> p_regs p') in Hm.
  change (map reg_terms (p_regs p)) with (reg_terms <$> p_regs p) in Hm.
  rewrite !list_lookup_fmap, Hr in Hm. cbn in Hm.
  destruct (p_regs p !! i) as [r|]; [|discriminate]. injection Hm as Hm. exists r.
  unfold reg_terms. rewrite Hm. repeat split; congruence.
Qed.

Lemma lsum_map {A} (f : registry -> A) (g : A -> Z) l : lsum (fun r => g (f r)) l = lsum g (map f l).
Proof. induction l; cbn; lia. Qed.

Lemma same_terms_supply p p' : same_terms p p' -> lsum r_supply (p_regs p') = lsum r_supply (p_regs p).
Proof.
  intros Ht. pose proof (t_regs_eq p p' Ht) as Hm.
  etransitivity; [apply (lsum_map reg_terms (fun x => fst (fst (fst x))))|].
  rewrite Hm. symmetry. apply (lsum_map reg_terms (fun x => fst (fst (fst x)))).
Qed.

(** Registries that are not in use stay zero. *)
Definition zero_tail (p : presale) : Prop :=
  forall i r, p_regs p !! i = Some r -> p_nreg p <= Z.of_nat i -> r = reg_zero.

Lemma cfg_retime k p p' :
  cfg k p -> same_terms p p' -> zero_tail p' ->
  p_start p <= p_end p' ->
  ((p_vs p' = p_end p' + p_lock p' /\ p_ve p' = p_vs p' + p_vest p') \/
   (p_vs p' = 0 /\ p_ve p' = 0 /\ p_lock p' = 0 /\ p_vest p' = 0 /\ p_bps p' = 0)) ->
  p_end p' + p_lock p' + p_vest p' <= U64MAX ->
  (0 < p_bps p' -> p_imm_ts p' <= p_vs p' + p_vest p') ->
  (p_imm_ts p' = 0 \/ p_end p' <= p_imm_ts p') ->
  p_imm_ts p' <= U64MAX ->
  cfg k p'.
Proof.
  intros Hc Ht Hz H1 H2 H3 H4 H5 H6. pose proof (same_terms_supply p p' Ht) as Hsup.
  pose proof (same_terms_lookup p p') as Hlk. specialize (fun i r => Hlk i r Ht).
  pose proof (t_regs_eq p p' Ht) as Hmap.
  destruct Ht, Hc.
  rewrite t_lock_eq0, t_vest_eq0, t_bps_eq0 in H2. rewrite t_lock_eq0, t_vest_eq0 in H3.
  rewrite t_bps_eq0, t_vest_eq0 in H4.
  split; rewrite ?t_qmint_eq0, ?t_bmint_eq0, ?t_bvault_eq0, ?t_qvault_eq0, ?t_base_eq0, ?t_mode_eq0,
    ?t_wl_eq0, ?t_max_eq0, ?t_min_eq0, ?t_start_eq0, ?t_supply_eq0, ?t_nreg_eq0, ?t_bps_eq0, ?Hsup;
    rewrite ?t_lock_eq0, ?t_vest_eq0, ?t_raw0_eq0; try assumption.
  - apply (f_equal length) in Hmap. rewrite !map_length in Hmap. congruence.
  - intros i r Hr. destruct (Hlk i r Hr) as (r0 & Hr0 & Heq). unfold reg_terms in Heq.
    destruct (c_regs i r0 Hr0) as [(Hi & Hrest)|(Hi & Hrest)].
    + left. injection Heq as -> -> -> ->. rewrite t_nreg_eq0, t_max_eq0. auto.
    + right. split; [congruence|]. apply (Hz i r Hr). qlia.
  - qlia.
  - intros Hm. destruct (c_price Hm) as (Hq & Hb & Hg & Hall).
    split; [qlia|]. split; [qlia|]. split; [qlia|].
    intros i r Hr Hi. destruct (Hlk i r Hr) as (r0 & Hr0 & Heq). unfold reg_terms in Heq.
    injection Heq as Ha Hb' Hc' Hd'. rewrite Hb', Hc'. apply (Hall i r0 Hr0). qlia.
  - intros Hw i r Hr Hi. destruct (Hlk i r Hr) as (r0 & Hr0 & Heq).
    unfold reg_terms in Heq. injection Heq as Ha Hb' Hc' Hd'. rewrite Hb', Hc'.
    apply (c_permissioned Hw i r0 Hr0). qlia.
Qed.

Lemma cfg_same k p p' :
  cfg k p -> same_terms p p' -> same_timing p p' -> zero_tail p' -> cfg k p'.
Proof.
  intros Hc Ht Hm Hz. eapply cfg_retime; try eassumption; destruct Hm, Ht, Hc;
    rewrite ?t_end_eq0, ?t_vs_eq0, ?t_ve_eq0, ?t_imm_eq0, ?t_lock_eq0, ?t_vest_eq0, ?t_bps_eq0; try assumption; try lia.
Qed.

Lemma cfg_zero_tail k p : cfg k p -> zero_tail p.
Proof. intros Hc i r Hr Hi. eapply cfg_reg_zero; eassumption. Qed.

(** Updating the counters of a registry in use. *)
Lemma zero_tail_set p idx r r' :
  zero_tail p -> 0 <= idx < p_nreg p -> p_regs p !! Z.to_nat idx = Some r ->
  zero_tail (set_reg p idx r').
Proof.
  intros Hz Hi Hr i x Hx Hn. cbn in Hx, Hn. apply list_lookup_insert_Some in Hx as [(<- & <- & _)|(_ & Hx)].
  - lia.
  - eapply Hz; eassumption.
Qed.

Lemma set_reg_terms p idx r r' :
  p_regs p !! Z.to_nat idx = Some r -> reg_terms r' = reg_terms r -> same_terms p (set_reg p idx r').
Proof. intros Hr Ht. split; try reflexivity. cbn. eapply map_terms_set; eassumption. Qed.

(** * Changes of the escrow map *)

Definition ov (f : escrow -> Z) (o : option escrow) : Z := match o with Some e => f e | None => 0 end.

Record esum_delta (k : addr) (j : nat) (E E' : gmap addr escrow) (old new : option escrow) : Prop := {
  d_other : forall f i, i <> j -> esum k i f E' = esum k i f E;
  d_here : forall f, esum k j f E' = esum k j f E - ov f old + ov f new
}.

Lemma delta_update k j E ek e e' :
  E !! ek = Some e -> e_presale e = k -> e_presale e' = k ->
  e_idx e = Z.of_nat j -> e_idx e' = Z.of_nat j ->
  esum_delta k j E (<[ek := e']> E) (Some e) (Some e').
Proof.
  intros. split; intros.
  - rewrite (esum_update k i j f E ek e e') by assumption. destruct (decide (i = j)); [contradiction|lia].
  - rewrite (esum_update k j j f E ek e e') by assumption. destruct (decide (j = j)); [cbn; lia|contradiction].
Qed.
Lemma delta_insert k j E ek e :
  E !! ek = None -> e_presale e = k -> e_idx e = Z.of_nat j ->
  esum_delta k j E (<[ek := e]> E) None (Some e).
Proof.
  intros. split; intros.
  - rewrite (esum_insert k i j f E ek e) by assumption. destruct (decide (i = j)); [contradiction|lia].
  - rewrite (esum_insert k j j f E ek e) by assumption. destruct (decide (j = j)); [cbn; lia|contradiction].
Qed.
Lemma delta_delete k j E ek e :
  E !! ek = Some e -> e_presale e = k -> e_idx e = Z.of_nat j ->
  esum_delta k j E (delete ek E) (Some e) None.
Proof.
  intros. split; intros.
  - rewrite (esum_delete k i j f E ek e) by assumption. destruct (decide (i = j)); [contradiction|lia].
  - rewrite (esum_delete k j j f E ek e) by assumption. destruct (decide (j = j)); [cbn; lia|contradiction].
Qed.

Lemma books_upd k p p' E E' j r r' old new :
  books k p E -> esum_delta k j E E' old new ->
  p_regs p !! j = Some r -> p_regs p' = <[j := r']> (p_regs p) ->
  p_deposit p' = p_deposit p + (r_deposit r' - r_deposit r) ->
  p_fee p' = p_fee p + (r_fee r' - r_fee r) ->
  p_claimed p' = p_claimed p + (r_claimed r' - r_claimed r) ->
  p_refunded p' = p_refunded p + (r_refunded r' - r_refunded r) ->
  p_escrows p' = p_escrows p + (r_escrows r' - r_escrows r) ->
  p_deposit p' + p_fee p' <= U64MAX ->
  0 <= r_deposit r' -> 0 <= r_fee r' -> 0 <= r_claimed r' -> 0 <= r_refunded r' ->
  r_escrows r' = r_escrows r - ov one old + ov one new ->
  (p_cwd p' = 0 \/ p_cwd p' = 1) /\ (p_fee_col p' = 0 \/ p_fee_col p' = 1) /\
  (p_unsold_done p' = 0 \/ p_unsold_done p' = 1) ->
  books k p' E'.
Proof.
  intros Hb [Hoth Hhere] Hr Hregs Hd Hf Hcl Hre Hes H64 H1 H2 H3 H4 Hcnt Hfl.
  destruct Hb. split; rewrite ?Hregs.
  - rewrite Hd, (lsum_update _ _ _ r) by assumption. lia.
  - rewrite Hf, (lsum_update _ _ _ r) by assumption. lia.
  - rewrite Hcl, (lsum_update _ _ _ r) by assumption. lia.
  - rewrite Hre, (lsum_update _ _ _ r) by assumption. lia.
  - rewrite Hes, (lsum_update _ _ _ r) by assumption. lia.
  - assumption.
  - intros i x Hx. apply list_lookup_insert_Some in Hx as [(<- & <- & _)|(_ & Hx)]; [auto|].
    eauto.
  - intros i x Hx. apply list_lookup_insert_Some in Hx as [(<- & <- & _)|(Hne & Hx)].
    + rewrite Hhere, Hcnt, (b_count j r Hr). reflexivity.
    + rewrite Hoth by congruence. eauto.
  - assumption.
Qed.

(** Splitting a statement about all registries after an update of one of them. *)
Ltac regcase i x Hx Hne :=
  intros i x Hx; apply list_lookup_insert_Some in Hx as [(<- & <- & _)|(Hne & Hx)];
  [|apply not_eq_sym in Hne].

(** Linear reasoning with quotients as opaque numbers. *)
Ltac divabs :=
  repeat match goal with
  | |- context [?a / ?b] => let q := fresh "q" in set (q := a / b) in *; clearbody q
  | H : context [?a / ?b] |- _ => let q := fresh "q" in set (q := a / b) in *; clearbody q
  end.
Ltac dlia := divabs; lia.

Section Escrow.
Context (now : Z) (k : addr) (p : presale) (E : gmap addr escrow).
Context (Hc : cfg k p) (Ha : acct now k p E).

Let Hb : books k p E := a_books _ _ _ _ Ha.

Lemma acct_esc ek e : E !! ek = Some e -> e_presale e = k -> esc_ok now k p ek e.
Proof. apply (a_esc _ _ _ _ Ha). Qed.

Lemma nat_idx e : 0 <= e_idx e -> e_idx e = Z.of_nat (Z.to_nat (e_idx e)).
Proof. lia. Qed.

(** ** Creating an escrow *)
Lemma acct_create owner idx cap r :
  now < p_end p -> 0 <= idx < p_nreg p -> p_regs p !! Z.to_nat idx = Some r ->
  E !! PEscrow k owner idx = None -> 0 <= cap <= r_max_cap r ->
  acct now k
    (set_p_escrows (p_escrows p + 1) (set_reg p idx (set_r_escrows (r_escrows r + 1) r)))
    (<[PEscrow k owner idx := esc_init k owner now idx cap]> E).
Proof.
  intros Hnow Hidx Hr Hnone Hcap.
  set (ek := PEscrow k owner idx). set (e := esc_init k owner now idx cap).
  pose proof (a_fresh _ _ _ _ Ha Hnow) as Hfr.
  assert (Hdel : esum_delta k (Z.to_nat idx) E (<[ek := e]> E) None (Some e)).
  { apply delta_insert; [assumption|reflexivity|cbn; lia]. }
  pose proof Hdel as [Hoth Hhere].
  pose proof (b_nonneg _ _ _ Hb _ _ Hr) as (Hn1 & Hn2 & Hn3 & Hn4).
  assert (Hz : forall f, f e = 0 -> forall i, esum k i f (<[ek := e]> E) = esum k i f E).
  { intros f Hf i. destruct (decide (i = Z.to_nat idx)) as [->|Hne].
    - rewrite Hhere. cbn. lia.
    - apply Hoth. assumption. }
  split.
  - eapply (books_upd _ _ _ _ _ _ _ _ _ _ Hb Hdel Hr); [reflexivity|..]; cbn; unfold one; try lia.
    + apply (b_u64 _ _ _ Hb).
    + apply (b_flags _ _ _ Hb).
  - destruct (a_caps _ _ _ _ Ha) as [Hk1 Hk2]. split; cbn; [assumption|].
    intros Hm. regcase i x Hx Hne; intros Hi; cbn; eapply Hk2; eassumption.
  - intros ek' e' He' Hp'. destruct (decide (ek' = ek)) as [->|Hne].
    + rewrite lookup_insert in He'. injection He' as <-.
      split; cbn; try lia; try reflexivity.
      intros r' Hr'. rewrite list_lookup_insert in Hr' by (eapply lookup_lt_Some; eassumption).
      injection Hr' as <-. cbn. split; [lia|]. split; [lia|].
      apply (entitled_nonneg k p (Z.to_nat idx) r 0 now Hc Hr Hn1). lia.
    + rewrite lookup_insert_ne in He' by congruence. pose proof (acct_esc _ _ He' Hp') as [].
      split; cbn; try assumption.
      intros r' Hr'. apply list_lookup_insert_Some in Hr' as [(Hj & <- & _)|(_ & Hr')].
      * rewrite Hj in Hr. exact (s_reg r Hr).
      * apply s_reg. assumption.
  - cbn. regcase i x Hx Hne; unfold closed_deposit, closed_fee.
    + rewrite !Hz by reflexivity. apply (a_open _ _ _ _ Ha _ _ Hr).
    + rewrite !Hoth by assumption. apply (a_open _ _ _ _ Ha i x Hx).
  - intros _. destruct Hfr as [Hf1 Hf2 Hf3]. split; cbn.
    + assumption.
    + regcase i x Hx Hne.
      * rewrite !Hz by reflexivity. cbn. apply Hf2. assumption.
      * rewrite !Hoth by assumption. apply Hf2. assumption.
    + intros ek' e' He' Hp'. destruct (decide (ek' = ek)) as [->|Hne].
      * rewrite lookup_insert in He'. injection He' as <-. cbn. auto.
      * rewrite lookup_insert_ne in He' by congruence. eapply Hf3; eassumption.
  - cbn. intros Hmin. pose proof (a_success _ _ _ _ Ha Hmin) as Hs. regcase i x Hx Hne.
    + destruct (Hs _ _ Hr). split; unfold closed_deposit, closed_fee in *;
        rewrite !Hz by reflexivity; assumption.
    + destruct (Hs i x Hx). split; unfold closed_deposit, closed_fee in *;
        rewrite !Hoth by assumption; assumption.
  - cbn. intros Hmin. destruct (a_failed _ _ _ _ Ha Hmin) as [Hp1 Hp2 Hp3]. split; cbn.
    + assumption.
    + regcase i x Hx Hne; unfold closed_deposit, closed_fee.
      * rewrite !Hz by reflexivity. cbn. apply (Hp2 _ _ Hr).
      * rewrite !Hoth by assumption. apply Hp2; assumption.
    + intros ek' e' He' Hp'. destruct (decide (ek' = ek)) as [->|Hne].
      * rewrite lookup_insert in He'. injection He' as <-. cbn. auto.
      * rewrite lookup_insert_ne in He' by congruence. eapply Hp3; eassumption.
Qed.

(** ** Before the end: everything follows from [fresh] *)

Definition esc_static (p : presale) (ek : addr) (e : escrow) : Prop :=
  ek = PEscrow k (e_owner e) (e_idx e) /\ 0 <= e_idx e < p_nreg p /\
  0 <= e_deposit e <= e_cap e /\ 0 <= e_fee e /\
  forall r, p_regs p !! Z.to_nat (e_idx e) = Some r ->
    e_cap e <= r_max_cap r /\ (e_deposit e = 0 \/ r_min_cap r <= e_deposit e).

Lemma acct_static ek e : E !! ek = Some e -> e_presale e = k -> esc_static p ek e.
Proof.
  intros He Hk. destruct (acct_esc ek e He Hk). unfold esc_static.
  split; [assumption|]. split; [assumption|]. split; [assumption|]. split; [assumption|].
  intros r Hr. destruct (s_reg r Hr) as (Q1 & Q2 & _). auto.
Qed.

Lemma acct_of_fresh t p' E' :
  cfg k p' -> books k p' E' -> caps p' -> fresh k p' E' ->
  (forall ek e, E' !! ek = Some e -> e_presale e = k -> esc_static p' ek e) ->
  acct t k p' E'.
Proof.
  intros Hc' Hb' Hk' [Hf1 Hf2 Hf3] Hst.
  assert (Hcl : forall i r, p_regs p' !! i = Some r ->
                closed_deposit k i r E' = 0 /\ closed_fee k i r E' = 0).
  { intros i r Hr. destruct (Hf2 i r Hr) as (H1 & H2 & _). unfold closed_deposit, closed_fee. lia. }
  assert (Hz : forall i f, (forall e, e_withdrawn e = 0 -> e_claimed e = 0 -> f e = 0) -> esum k i f E' = 0).
  { intros i f Hf. rewrite <- (esum_zero k i E'). apply esum_ext. intros ek e He Hk1 _.
    destruct (Hf3 ek e He Hk1) as (? & ? & ?). auto. }
  split; try assumption.
  - intros ek e He Hk1. destruct (Hst ek e He Hk1) as (S1 & S2 & S3 & S4 & S5).
    destruct (Hf3 ek e He Hk1) as (F1 & F2 & F3). split; try assumption; try lia.
    intros r Hr. destruct (S5 r Hr). split; [assumption|]. split; [assumption|].
    rewrite F1, F2. eapply entitled_nonneg; try eassumption; try lia.
    apply (b_nonneg _ _ _ Hb' _ _ Hr).
  - intros i r Hr. destruct (Hcl i r Hr). lia.
  - intros _. split; assumption.
  - intros _ i r Hr. destruct (Hcl i r Hr) as [C1 C2]. destruct (Hf2 i r Hr) as (_ & _ & C3 & C4).
    destruct (b_nonneg _ _ _ Hb' _ _ Hr) as (N1 & N2 & _).
    split; rewrite ?C1, ?C2, ?C3, ?C4.
    + rewrite Hz by auto. lia.
    + rewrite Hz by auto. rewrite !Z.mul_0_r.
      rewrite !Zdiv.Zdiv_0_l. lia.
    + rewrite Hz; [|unfold refunded_share; intros ? -> _; reflexivity]. rewrite !Z.mul_0_l.
      rewrite !Zdiv.Zdiv_0_l. lia.
  - intros _. split.
    + tauto.
    + intros i r Hr. destruct (Hcl i r Hr) as [C1 C2]. destruct (Hf2 i r Hr) as (_ & _ & C3 & C4).
      rewrite C1, C2, C4. split; [assumption|].
      rewrite Hz; [reflexivity|unfold refunded_full; intros ? -> _; reflexivity].
    + intros ek e He Hk1. destruct (Hf3 ek e He Hk1) as (? & ? & ?). auto.
Qed.

(** ** Deposits and withdrawals: any change of one escrow before the end *)
Lemma acct_change t p' ek e e' r r' :
  now < p_end p -> E !! ek = Some e -> e_presale e = k ->
  p_regs p !! Z.to_nat (e_idx e) = Some r ->
  cfg k p' -> same_terms p p' -> p_regs p' = <[Z.to_nat (e_idx e) := r']> (p_regs p) ->
  caps p' ->
  r_deposit r' = r_deposit r + (e_deposit e' - e_deposit e) ->
  r_fee r' = r_fee r + (e_fee e' - e_fee e) ->
  r_claimed r' = r_claimed r -> r_refunded r' = r_refunded r -> r_escrows r' = r_escrows r ->
  p_deposit p' = p_deposit p + (e_deposit e' - e_deposit e) ->
  p_fee p' = p_fee p + (e_fee e' - e_fee e) ->
  p_claimed p' = p_claimed p -> p_refunded p' = p_refunded p -> p_escrows p' = p_escrows p ->
  p_cwd p' = p_cwd p -> p_fee_col p' = p_fee_col p -> p_unsold_done p' = p_unsold_done p ->
  p_deposit p' + p_fee p' <= U64MAX ->
  e_presale e' = e_presale e -> e_owner e' = e_owner e -> e_idx e' = e_idx e -> e_cap e' = e_cap e ->
  e_claimed e' = e_claimed e -> e_pending e' = e_pending e -> e_withdrawn e' = e_withdrawn e ->
  0 <= e_deposit e' <= e_cap e -> 0 <= e_fee e' ->
  (e_deposit e' = 0 \/ r_min_cap r <= e_deposit e') ->
  acct t k p' (<[ek := e']> E).
Proof.
  intros Hnow He Hk Hr Hc' Ht Hregs Hcaps Hrd Hrf Hrc Hrr Hre Hpd Hpf Hpc Hpr Hpe Hw Hfc Hun H64
    E1 E2 E3 E4 E5 E6 E7 E8 E9 E10.
  destruct (a_fresh _ _ _ _ Ha Hnow) as [Hf1 Hf2 Hf3].
  pose proof (acct_static ek e He Hk) as (S1 & S2 & S3 & S4 & S5).
  assert (Hj : e_idx e = Z.of_nat (Z.to_nat (e_idx e))) by lia.
  assert (Hdel : esum_delta k (Z.to_nat (e_idx e)) E (<[ek := e']> E) (Some e) (Some e')).
  { apply delta_update; congruence. }
  pose proof Hdel as [Hoth Hhere].
  destruct (Hf2 _ _ Hr) as (R1 & R2 & R3 & R4).
  pose proof (b_nonneg _ _ _ Hb _ _ Hr) as (N1 & N2 & N3 & N4).
  assert (Hd0 : 0 <= r_deposit r').
  { rewrite Hrd, R1. pose proof (esum_member k (Z.to_nat (e_idx e)) e_deposit E ek e He Hk Hj) as Hm.
    enough (e_deposit e <= esum k (Z.to_nat (e_idx e)) e_deposit E) by lia. apply Hm.
    intros ek2 e2 He2 Hk2 _. destruct (acct_static ek2 e2 He2 Hk2) as (_ & _ & ? & _). lia. }
  assert (Hf0 : 0 <= r_fee r').
  { rewrite Hrf, R2. pose proof (esum_member k (Z.to_nat (e_idx e)) e_fee E ek e He Hk Hj) as Hm.
    enough (e_fee e <= esum k (Z.to_nat (e_idx e)) e_fee E) by lia. apply Hm.
    intros ek2 e2 He2 Hk2 _. destruct (acct_static ek2 e2 He2 Hk2) as (_ & _ & _ & ? & _). lia. }
  apply acct_of_fresh; try assumption.
  - eapply (books_upd _ _ _ _ _ _ _ _ _ _ Hb Hdel Hr); [eassumption|..]; cbn; unfold one; try lia.
  - split.
    + rewrite Hw, Hfc, Hun. assumption.
    + rewrite Hregs. regcase i x Hx Hne.
      * rewrite !Hhere. cbn. lia.
      * rewrite !Hoth by assumption. apply Hf2. assumption.
    + intros ek2 e2 He2 Hk2. destruct (decide (ek2 = ek)) as [->|Hne].
      * rewrite lookup_insert in He2. injection He2 as <-. rewrite E5, E6, E7. eapply Hf3; eassumption.
      * rewrite lookup_insert_ne in He2 by congruence. eapply Hf3; eassumption.
  - intros ek2 e2 He2 Hk2. destruct (decide (ek2 = ek)) as [->|Hne].
    + rewrite lookup_insert in He2. injection He2 as <-. unfold esc_static.
      rewrite E2, E3, E4, (t_nreg_eq _ _ Ht).
      split; [assumption|]. split; [assumption|]. split; [assumption|]. split; [assumption|].
      intros r1 Hr1. destruct (same_terms_lookup _ _ _ _ Ht Hr1) as (r2 & Hr2 & Heq).
      unfold reg_terms in Heq. injection Heq as Q1 Q2 Q3 Q4.
      assert (r2 = r) as -> by congruence. rewrite Q2, Q3. split; [apply (S5 r Hr)|assumption].
    + rewrite lookup_insert_ne in He2 by congruence.
      destruct (acct_static ek2 e2 He2 Hk2) as (T1 & T2 & T3 & T4 & T5). unfold esc_static.
      rewrite (t_nreg_eq _ _ Ht).
      split; [assumption|]. split; [assumption|]. split; [assumption|]. split; [assumption|].
      intros r1 Hr1. destruct (same_terms_lookup _ _ _ _ Ht Hr1) as (r2 & Hr2 & Heq).
      unfold reg_terms in Heq. injection Heq as Q1 Q2 Q3 Q4. rewrite Q2, Q3. apply (T5 r2 Hr2).
Qed.

(** ** Refunds *)
Lemma acct_refund ek e r x :
  p_end p <= now -> E !! ek = Some e -> e_presale e = k ->
  p_regs p !! Z.to_nat (e_idx e) = Some r -> e_withdrawn e = 0 ->
  x = (if p_min_cap p <=? p_deposit p
       then share_deposit p r (e_deposit e) + share_fee p r (e_fee e)
       else e_deposit e + e_fee e) ->
  acct now k (set_p_refunded (p_refunded p + x)
                (set_reg p (e_idx e) (set_r_refunded (r_refunded r + x) r)))
    (<[ek := set_e_withdrawn 1 e]> E).
Proof.
  intros Hnow He Hk Hr Hflag Hx.
  set (e' := set_e_withdrawn 1 e).
  pose proof (acct_esc ek e He Hk) as Heo. pose proof Heo as [].
  assert (Hj : e_idx e = Z.of_nat (Z.to_nat (e_idx e))) by lia.
  assert (Hdel : esum_delta k (Z.to_nat (e_idx e)) E (<[ek := e']> E) (Some e) (Some e')).
  { apply delta_update; try assumption. }
  pose proof Hdel as [Hoth Hhere].
  pose proof (books_reg_le _ _ _ _ _ Hb Hr) as (N1 & N2 & N3 & N4).
  pose proof (c_caps _ _ Hc) as Hcaps.
  assert (Hx0 : 0 <= x).
  { subst x. destruct (_ <=? _); [|lia].
    pose proof (share_deposit_range p r (e_deposit e) ltac:(lia) N1 ltac:(lia)).
    pose proof (share_fee_range p r (e_fee e) ltac:(lia) N1 ltac:(lia) ltac:(lia)). lia. }
  assert (Hsame : forall f, f e' = f e -> forall i, esum k i f (<[ek := e']> E) = esum k i f E).
  { intros f Hf i. destruct (decide (i = Z.to_nat (e_idx e))) as [->|Hne].
    - rewrite Hhere. cbn. lia.
    - apply Hoth. assumption. }
  split.
  - eapply (books_upd _ _ _ _ _ _ _ _ _ _ Hb Hdel Hr); [reflexivity|..]; cbn; unfold one; try lia.
    + apply (b_u64 _ _ _ Hb).
    + apply (b_flags _ _ _ Hb).
  - destruct (a_caps _ _ _ _ Ha) as [Hk1 Hk2]. split; cbn; [assumption|].
    intros Hm. regcase i y Hy Hne; intros Hi; cbn; eapply Hk2; eassumption.
  - intros ek' e2 He2 Hp2. destruct (decide (ek' = ek)) as [->|Hne].
    + rewrite lookup_insert in He2. injection He2 as <-. subst e'.
      split; cbn; try assumption; try lia.
      intros r' Hr'. rewrite list_lookup_insert in Hr' by (eapply lookup_lt_Some; eassumption).
      injection Hr' as <-. exact (s_reg r Hr).
    + rewrite lookup_insert_ne in He2 by congruence. pose proof (acct_esc _ _ He2 Hp2) as [].
      split; cbn; try assumption.
      intros r' Hr'. apply list_lookup_insert_Some in Hr' as [(Hjj & <- & _)|(_ & Hr')].
      * rewrite Hjj in Hr. exact (s_reg0 r Hr).
      * apply s_reg0. assumption.
  - cbn. regcase i y Hy Hne; unfold closed_deposit, closed_fee; rewrite !Hsame by reflexivity.
    + apply (a_open _ _ _ _ Ha _ _ Hr).
    + apply (a_open _ _ _ _ Ha i y Hy).
  - cbn. intros. lia.
  - cbn. intros Hmin. pose proof (a_success _ _ _ _ Ha Hmin) as Hs. regcase i y Hy Hne.
    + destruct (Hs _ _ Hr) as [A1 A2 A3]. split; unfold closed_deposit, closed_fee in *.
      * rewrite Hsame by reflexivity. exact A1.
      * rewrite !Hsame by reflexivity. exact A2.
      * change (refunded_share _ _) with (refunded_share p r).
        rewrite Hhere, !Hsame by reflexivity. cbn [ov].
        rewrite (proj2 (Z.leb_le _ _) Hmin) in Hx.
        assert (G1 : refunded_share p r e = 0) by (unfold refunded_share; rewrite Hflag; reflexivity).
        assert (G2 : refunded_share p r e' = x) by (rewrite Hx; reflexivity).
        rewrite G1, G2.
        change (r_refunded r + x <= esum k (Z.to_nat (e_idx e)) (refunded_share p r) E - 0 + x +
          (r_deposit r - esum k (Z.to_nat (e_idx e)) e_deposit E) * reg_excess p r / r_deposit r +
          (r_fee r - esum k (Z.to_nat (e_idx e)) e_fee E) * reg_fee_excess p r / r_fee r).
        clear - A3. dlia.
    + destruct (Hs i y Hy) as [A1 A2 A3]. split; unfold closed_deposit, closed_fee in *;
        change (refunded_share _ y) with (refunded_share p y);
        rewrite !Hoth by assumption; assumption.
  - cbn. intros Hmin. destruct (a_failed _ _ _ _ Ha Hmin) as [Hp1 Hp2 Hp3]. split; cbn.
    + assumption.
    + regcase i y Hy Hne; unfold closed_deposit, closed_fee.
      * rewrite Hhere, !Hsame by reflexivity. cbn [ov].
        destruct (Hp2 _ _ Hr) as [B1 B2]. unfold closed_deposit, closed_fee in B2. cbn.
        split; [assumption|]. destruct (Z.leb_spec (p_min_cap p) (p_deposit p)); [lia|].
        assert (G1 : refunded_full e = 0) by (unfold refunded_full; rewrite Hflag; reflexivity).
        assert (G2 : refunded_full e' = x) by (rewrite Hx; reflexivity).
        lia.
      * rewrite !Hoth by assumption. apply Hp2; assumption.
    + intros ek' e2 He2 Hp2'. destruct (decide (ek' = ek)) as [->|Hne].
      * rewrite lookup_insert in He2. injection He2 as <-. cbn. eapply Hp3; eassumption.
      * rewrite lookup_insert_ne in He2 by congruence. eapply Hp3; eassumption.
Qed.

(** ** Refreshing the pending amount *)
Lemma acct_refresh ek e r n t :
  p_end p <= now -> p_min_cap p <= p_deposit p -> E !! ek = Some e -> e_presale e = k ->
  p_regs p !! Z.to_nat (e_idx e) = Some r ->
  0 <= n -> e_claimed e + n <= entitled p r (e_deposit e) now ->
  acct now k p (<[ek := set_e_refreshed t (set_e_pending n e)]> E).
Proof.
  intros Hnow Hmin He Hk Hr Hn0 Hn.
  set (e' := set_e_refreshed t (set_e_pending n e)).
  pose proof (acct_esc ek e He Hk) as Heo. pose proof Heo as [].
  assert (Hj : e_idx e = Z.of_nat (Z.to_nat (e_idx e))) by lia.
  assert (Hdel : esum_delta k (Z.to_nat (e_idx e)) E (<[ek := e']> E) (Some e) (Some e')).
  { apply delta_update; try assumption. }
  pose proof Hdel as [Hoth Hhere].
  assert (Hsame : forall f, f e' = f e -> forall i, esum k i f (<[ek := e']> E) = esum k i f E).
  { intros f Hf i. destruct (decide (i = Z.to_nat (e_idx e))) as [->|Hne].
    - rewrite Hhere. cbn. lia.
    - apply Hoth. assumption. }
  split.
  - destruct Hb. split; try assumption. intros i x Hx. rewrite Hsame by reflexivity. eauto.
  - apply (a_caps _ _ _ _ Ha).
  - intros ek' e2 He2 Hp2. destruct (decide (ek' = ek)) as [->|Hne].
    + rewrite lookup_insert in He2. injection He2 as <-. subst e'.
      split; cbn; try assumption; try lia.
      intros r' Hr'. assert (r' = r) as -> by congruence.
      destruct (s_reg r Hr) as (Q1 & Q2 & _). auto.
    + rewrite lookup_insert_ne in He2 by congruence. apply acct_esc; assumption.
  - intros i x Hx. unfold closed_deposit, closed_fee. rewrite !Hsame by reflexivity.
    apply (a_open _ _ _ _ Ha i x Hx).
  - intros. lia.
  - intros _ i x Hx. destruct (a_success _ _ _ _ Ha Hmin i x Hx) as [A1 A2 A3].
    split; unfold closed_deposit, closed_fee in *; rewrite !Hsame by reflexivity; assumption.
  - intros. lia.
Qed.

(** ** Paying out the pending amount *)
Lemma acct_claim ek e r :
  p_end p <= now -> p_min_cap p <= p_deposit p -> E !! ek = Some e -> e_presale e = k ->
  p_regs p !! Z.to_nat (e_idx e) = Some r ->
  acct now k (set_p_claimed (p_claimed p + e_pending e)
                (set_reg p (e_idx e) (set_r_claimed (r_claimed r + e_pending e) r)))
    (<[ek := set_e_pending 0 (set_e_claimed (e_claimed e + e_pending e) e)]> E).
Proof.
  intros Hnow Hmin He Hk Hr.
  set (e' := set_e_pending 0 (set_e_claimed (e_claimed e + e_pending e) e)).
  pose proof (acct_esc ek e He Hk) as Heo. pose proof Heo as [].
  assert (Hj : e_idx e = Z.of_nat (Z.to_nat (e_idx e))) by lia.
  assert (Hdel : esum_delta k (Z.to_nat (e_idx e)) E (<[ek := e']> E) (Some e) (Some e')).
  { apply delta_update; try assumption. }
  pose proof Hdel as [Hoth Hhere].
  pose proof (books_reg_le _ _ _ _ _ Hb Hr) as (N1 & N2 & N3 & N4).
  assert (Hsame : forall f, f e' = f e -> forall i, esum k i f (<[ek := e']> E) = esum k i f E).
  { intros f Hf i. destruct (decide (i = Z.to_nat (e_idx e))) as [->|Hne].
    - rewrite Hhere. cbn. lia.
    - apply Hoth. assumption. }
  split.
  - eapply (books_upd _ _ _ _ _ _ _ _ _ _ Hb Hdel Hr); [reflexivity|..]; cbn; unfold one; try lia.
    + apply (b_u64 _ _ _ Hb).
    + apply (b_flags _ _ _ Hb).
  - destruct (a_caps _ _ _ _ Ha) as [Hk1 Hk2]. split; cbn; [assumption|].
    intros Hm. regcase i y Hy Hne; intros Hi; cbn; eapply Hk2; eassumption.
  - intros ek' e2 He2 Hp2. destruct (decide (ek' = ek)) as [->|Hne].
    + rewrite lookup_insert in He2. injection He2 as <-. subst e'.
      split; cbn; try assumption; try lia.
      intros r' Hr'. rewrite list_lookup_insert in Hr' by (eapply lookup_lt_Some; eassumption).
      injection Hr' as <-. destruct (s_reg r Hr) as (Q1 & Q2 & Q3). split; [exact Q1|]. split; [exact Q2|].
      rewrite Z.add_0_r. exact Q3.
    + rewrite lookup_insert_ne in He2 by congruence. pose proof (acct_esc _ _ He2 Hp2) as [].
      split; cbn; try assumption.
      intros r' Hr'. apply list_lookup_insert_Some in Hr' as [(Hjj & <- & _)|(_ & Hr')].
      * rewrite Hjj in Hr. exact (s_reg0 r Hr).
      * apply s_reg0. assumption.
  - cbn. regcase i y Hy Hne; unfold closed_deposit, closed_fee; rewrite !Hsame by reflexivity.
    + apply (a_open _ _ _ _ Ha _ _ Hr).
    + apply (a_open _ _ _ _ Ha i y Hy).
  - cbn. intros. lia.
  - cbn. intros _. pose proof (a_success _ _ _ _ Ha Hmin) as Hs. regcase i y Hy Hne.
    + destruct (Hs _ _ Hr) as [A1 A2 A3]. split; unfold closed_deposit, closed_fee in *.
      * rewrite Hhere. cbn. lia.
      * rewrite Hhere, !Hsame by reflexivity.
        change (imm_part _ _) with (imm_part p r). change (vest_part _ _) with (vest_part p r). cbn. lia.
      * change (refunded_share _ _) with (refunded_share p r).
        rewrite !Hsame by reflexivity. exact A3.
    + destruct (Hs i y Hy) as [A1 A2 A3]. split; unfold closed_deposit, closed_fee in *;
        change (refunded_share _ y) with (refunded_share p y);
        rewrite !Hoth by assumption; assumption.
  - cbn. intros. lia.
Qed.

(** ** Closing an escrow *)
Lemma acct_close ek e r :
  E !! ek = Some e -> e_presale e = k -> p_regs p !! Z.to_nat (e_idx e) = Some r ->
  (now < p_end p -> e_deposit e = 0 /\ e_fee e = 0) ->
  (p_end p <= now -> p_deposit p < p_min_cap p ->
   e_withdrawn e = 1 \/ (e_deposit e = 0 /\ e_fee e = 0)) ->
  (p_end p <= now -> p_min_cap p <= p_deposit p ->
   e_claimed e = final p r (e_deposit e) /\
   (e_withdrawn e = 1 \/ share_deposit p r (e_deposit e) + share_fee p r (e_fee e) = 0)) ->
  acct now k (set_p_escrows (p_escrows p - 1)
                (set_reg p (e_idx e) (set_r_escrows (r_escrows r - 1) r)))
    (delete ek E).
Proof.
  intros He Hk Hr Hon Hfail Hsucc.
  pose proof (acct_esc ek e He Hk) as Heo. pose proof Heo as [].
  assert (Hj : e_idx e = Z.of_nat (Z.to_nat (e_idx e))) by lia.
  assert (Hdel : esum_delta k (Z.to_nat (e_idx e)) E (delete ek E) (Some e) None).
  { apply delta_delete; try assumption. }
  pose proof Hdel as [Hoth Hhere].
  pose proof (books_reg_le _ _ _ _ _ Hb Hr) as (N1 & N2 & N3 & N4).
  pose proof (c_caps _ _ Hc) as Hcaps.
  pose proof (a_open _ _ _ _ Ha _ _ Hr) as [O1 O2].
  assert (Hsub : forall ek' e', delete ek E !! ek' = Some e' -> E !! ek' = Some e').
  { intros ek' e' Hd. apply lookup_delete_Some in Hd as [_ Hd]. assumption. }
  split.
  - eapply (books_upd _ _ _ _ _ _ _ _ _ _ Hb Hdel Hr); [reflexivity|..]; cbn; unfold one; try lia.
    + apply (b_u64 _ _ _ Hb).
    + apply (b_flags _ _ _ Hb).
  - destruct (a_caps _ _ _ _ Ha) as [Hk1 Hk2]. split; cbn; [assumption|].
    intros Hm. regcase i y Hy Hne; intros Hi; cbn; eapply Hk2; eassumption.
  - intros ek' e2 He2 Hp2. pose proof (acct_esc _ _ (Hsub _ _ He2) Hp2) as [].
    split; cbn; try assumption.
    intros r' Hr'. apply list_lookup_insert_Some in Hr' as [(Hjj & <- & _)|(_ & Hr')].
    + rewrite Hjj in Hr. exact (s_reg0 r Hr).
    + apply s_reg0. assumption.
  - cbn. regcase i y Hy Hne; unfold closed_deposit, closed_fee in *.
    + rewrite !Hhere. cbn. lia.
    + rewrite !Hoth by assumption. apply (a_open _ _ _ _ Ha i y Hy).
  - cbn. intros Hnow. destruct (Hon Hnow) as [D0 F0]. destruct (a_fresh _ _ _ _ Ha Hnow) as [Hf1 Hf2 Hf3].
    split; cbn.
    + assumption.
    + regcase i y Hy Hne.
      * rewrite !Hhere. cbn. specialize (Hf2 _ _ Hr). lia.
      * rewrite !Hoth by assumption. apply Hf2. assumption.
    + intros ek' e2 He2 Hp2. eapply Hf3; [apply Hsub|]; eassumption.
  - cbn. intros Hmin. pose proof (a_success _ _ _ _ Ha Hmin) as Hs.
    assert (Hcl : e_claimed e = final p r (e_deposit e) /\
       (e_withdrawn e = 1 \/ share_deposit p r (e_deposit e) + share_fee p r (e_fee e) = 0)).
    { destruct (Z.le_gt_cases (p_end p) now) as [Hend|Hend]; [auto|].
      destruct (Hon Hend) as [D0 F0]. destruct (a_fresh _ _ _ _ Ha Hend) as [_ _ Hf3].
      destruct (Hf3 _ _ He Hk) as (C0 & _ & _). rewrite D0, F0, C0. unfold final, share_deposit, share_fee.
      rewrite !Z.mul_0_r, !Z.mul_0_l.
      rewrite !Zdiv.Zdiv_0_l. split; [|right]; reflexivity. }
    destruct Hcl as [Hclaim Href].
    regcase i y Hy Hne.
    + destruct (Hs _ _ Hr) as [A1 A2 A3]. split; unfold closed_deposit, closed_fee in *.
      * rewrite Hhere. cbn. clear - A1 s_claimed. lia.
      * rewrite !Hhere. cbn [ov].
        set (D := esum k (Z.to_nat (e_idx e)) e_deposit E) in *.
        set (C := esum k (Z.to_nat (e_idx e)) e_claimed E) in *.
        change (r_claimed r - (C - e_claimed e + 0) <=
          imm_part p r * (r_deposit r - (D - e_deposit e + 0)) / r_deposit r +
          vest_part p r * (r_deposit r - (D - e_deposit e + 0)) / r_deposit r).
        replace (r_deposit r - (D - e_deposit e + 0)) with ((r_deposit r - D) + e_deposit e) by (clear; lia).
        pose proof (fl_super (imm_part p r) (r_deposit r - D) (e_deposit e) (r_deposit r) ltac:(clear - N1; lia)) as G1.
        pose proof (fl_super (vest_part p r) (r_deposit r - D) (e_deposit e) (r_deposit r) ltac:(clear - N1; lia)) as G2.
        unfold final in Hclaim. clear - A2 G1 G2 Hclaim. dlia.
      * rewrite !Hhere. cbn [ov]. change (refunded_share _ _) with (refunded_share p r).
        set (D := esum k (Z.to_nat (e_idx e)) e_deposit E) in *.
        set (F := esum k (Z.to_nat (e_idx e)) e_fee E) in *.
        set (R := esum k (Z.to_nat (e_idx e)) (refunded_share p r) E) in *.
        change (r_refunded r <= (R - refunded_share p r e + 0) +
          (r_deposit r - (D - e_deposit e + 0)) * reg_excess p r / r_deposit r +
          (r_fee r - (F - e_fee e + 0)) * reg_fee_excess p r / r_fee r).
        replace (r_deposit r - (D - e_deposit e + 0)) with ((r_deposit r - D) + e_deposit e) by (clear; lia).
        replace (r_fee r - (F - e_fee e + 0)) with ((r_fee r - F) + e_fee e) by (clear; lia).
        pose proof (fl_super_l (reg_excess p r) (r_deposit r - D) (e_deposit e) (r_deposit r) ltac:(clear - N1; lia)) as G1.
        pose proof (fl_super_l (reg_fee_excess p r) (r_fee r - F) (e_fee e) (r_fee r) ltac:(clear - N2; lia)) as G2.
        pose proof (share_deposit_range p r (e_deposit e) ltac:(clear - Hcaps; lia) N1 ltac:(clear - s_deposit; lia)) as G3.
        pose proof (share_fee_range p r (e_fee e) ltac:(clear - Hcaps; lia) N1 ltac:(clear - N2; lia) s_fee) as G4.
        assert (refunded_share p r e = share_deposit p r (e_deposit e) + share_fee p r (e_fee e)) as G5.
        { unfold refunded_share. destruct s_flag as [Hw|Hw]; rewrite Hw; [|reflexivity].
          destruct Href as [Hz|Hz]; [congruence|]. rewrite Hz. reflexivity. }
        unfold share_deposit, share_fee in *. clear - A3 G1 G2 G5. dlia.
    + destruct (Hs i y Hy) as [A1 A2 A3]. split; unfold closed_deposit, closed_fee in *;
        change (refunded_share _ y) with (refunded_share p y);
        rewrite !Hoth by assumption; assumption.
  - cbn. intros Hmin. destruct (a_failed _ _ _ _ Ha Hmin) as [Hp1 Hp2 Hp3]. split; cbn.
    + assumption.
    + regcase i y Hy Hne; unfold closed_deposit, closed_fee.
      * rewrite !Hhere. cbn. destruct (Hp2 _ _ Hr) as [B1 B2]. unfold closed_deposit, closed_fee in B2.
        split; [assumption|].
        assert (refunded_full e = e_deposit e + e_fee e).
        { unfold refunded_full. destruct (Z.eqb_spec (e_withdrawn e) 1) as [|Hw]; [reflexivity|].
          destruct (Z.le_gt_cases (p_end p) now) as [Hend|Hend].
          - destruct (Hfail Hend Hmin) as [?|[? ?]]; lia.
          - destruct (Hon Hend). lia. }
        lia.
      * rewrite !Hoth by assumption. apply Hp2; assumption.
    + intros ek' e2 He2 Hp2'. eapply Hp3; [apply Hsub|]; eassumption.
Qed.

(** ** Time *)
Lemma acct_time now' : now <= now' -> acct now' k p E.
Proof.
  intros Hn. destruct Ha. split; try assumption.
  - intros ek e He Hk. destruct (acct_esc ek e He Hk). split; try assumption.
    intros r Hr. destruct (s_reg r Hr) as (Q1 & Q2 & Q3). split; [assumption|]. split; [assumption|].
    etransitivity; [exact Q3|]. eapply entitled_mono; try eassumption; try lia.
    apply (b_nonneg _ _ _ Hb _ _ Hr).
  - intros. apply a_fresh. lia.
Qed.

(** ** Flags set after the end *)
Lemma acct_flags p' :
  p_end p <= now -> same_terms p p' -> same_timing p p' ->
  p_regs p' = p_regs p -> p_deposit p' = p_deposit p -> p_fee p' = p_fee p ->
  p_claimed p' = p_claimed p -> p_refunded p' = p_refunded p -> p_escrows p' = p_escrows p ->
  (p_cwd p' = 0 \/ p_cwd p' = 1) /\ (p_fee_col p' = 0 \/ p_fee_col p' = 1) /\
  (p_unsold_done p' = 0 \/ p_unsold_done p' = 1) ->
  (p_deposit p < p_min_cap p -> p_fee_col p' = p_fee_col p /\ p_unsold_done p' = p_unsold_done p) ->
  acct now k p' E.
Proof.
  intros Hnow Ht Hm Hregs Hd Hf Hcl Hre Hes Hfl Hff.
  assert (Hsold : forall r, sold p' r = sold p r).
  { intros. unfold sold. rewrite (t_mode_eq _ _ Ht), (t_raw0_eq _ _ Ht). reflexivity. }
  assert (Himm : forall r, imm_part p' r = imm_part p r).
  { intros. unfold imm_part. rewrite Hsold, (t_bps_eq _ _ Ht). reflexivity. }
  assert (Hvest : forall r, vest_part p' r = vest_part p r).
  { intros. unfold vest_part. rewrite Hsold, Himm. reflexivity. }
  assert (Hex : forall r, reg_excess p' r = reg_excess p r).
  { intros. unfold reg_excess, excess. rewrite Hd, (t_max_eq _ _ Ht). reflexivity. }
  assert (Hfex : forall r, reg_fee_excess p' r = reg_fee_excess p r).
  { intros. unfold reg_fee_excess. rewrite Hex. reflexivity. }
  assert (Hen : forall r d t, entitled p' r d t = entitled p r d t).
  { intros. unfold entitled, vested_by.
    rewrite Himm, Hvest, (t_imm_eq _ _ Hm), (t_vs_eq _ _ Hm), (t_vest_eq _ _ Ht). reflexivity. }
  split.
  - destruct Hb. split; rewrite ?Hregs, ?Hd, ?Hf, ?Hcl, ?Hre, ?Hes; assumption.
  - destruct (a_caps _ _ _ _ Ha) as [Hk1 Hk2]. split.
    + rewrite (t_mode_eq _ _ Ht), Hd, (t_max_eq _ _ Ht). assumption.
    + rewrite (t_mode_eq _ _ Ht), Hregs, (t_nreg_eq _ _ Ht), (t_raw0_eq _ _ Ht). assumption.
  - intros ek e He Hk. destruct (acct_esc ek e He Hk). split; try assumption.
    + rewrite (t_nreg_eq _ _ Ht). assumption.
    + intros r Hr. rewrite Hregs in Hr. rewrite Hen. auto.
  - rewrite Hregs. apply (a_open _ _ _ _ Ha).
  - rewrite (t_end_eq _ _ Hm). lia.
  - rewrite (t_min_eq _ _ Ht), Hd, Hregs. intros Hmin i r Hr.
    destruct (a_success _ _ _ _ Ha Hmin i r Hr) as [A1 A2 A3]. split.
    + assumption.
    + rewrite Himm, Hvest. assumption.
    + rewrite Hex, Hfex. erewrite (esum_ext _ _ (refunded_share p' r)); [eassumption|].
      intros. unfold refunded_share, share_deposit, share_fee. rewrite Hex, Hfex. reflexivity.
  - rewrite (t_min_eq _ _ Ht), Hd. intros Hmin. destruct (a_failed _ _ _ _ Ha Hmin) as [Hp1 Hp2 Hp3].
    destruct (Hff Hmin) as [G1 G2]. split.
    + rewrite G1, G2. assumption.
    + rewrite Hregs. assumption.
    + assumption.
Qed.

(** ** Changes of escrows of other presales *)
Lemma acct_frame E' :
  (forall f i, esum k i f E' = esum k i f E) ->
  (forall ek e, E' !! ek = Some e -> e_presale e = k -> E !! ek = Some e) ->
  acct now k p E'.
Proof.
  intros Hs Hl. destruct Ha. split.
  - destruct Hb. split; try assumption. intros. rewrite Hs. eauto.
  - assumption.
  - intros ek e He Hk. apply acct_esc; auto.
  - intros i r Hr. unfold closed_deposit, closed_fee. rewrite !Hs. apply a_open. assumption.
  - intros Hn. destruct (a_fresh Hn) as [F1 F2 F3]. split; try assumption.
    + intros i r Hr. rewrite !Hs. auto.
    + intros ek e He Hk. eapply F3; eauto.
  - intros Hm i r Hr. destruct (a_success Hm i r Hr) as [A1 A2 A3].
    split; unfold closed_deposit, closed_fee; rewrite !Hs; assumption.
  - intros Hm. destruct (a_failed Hm) as [F1 F2 F3]. split; try assumption.
    + intros i r Hr. unfold closed_deposit, closed_fee. rewrite !Hs. apply F2. assumption.
    + intros ek e He Hk. eapply F3; eauto.
Qed.

End Escrow.
