(** Every operation of the program and of its environment preserves the invariant. *)
From Coq Require Import Lia.
From Verif Require Import Base Math State Handlers Token World Instr Exec Spec Tactics Sums Arith
  TokenFacts Inv Acct Funs Steps Init.

(** * Frame lemmas *)

(** Escrows of presales other than [k] are untouched. *)
Definition others_kept (k : addr) (E E' : gmap addr escrow) : Prop :=
  (forall k' f i, k' <> k -> esum k' i f E' = esum k' i f E) /\
  (forall ek e, E' !! ek = Some e -> e_presale e <> k -> E !! ek = Some e).

Lemma others_refl k E : others_kept k E E.
Proof. split; auto. Qed.
Lemma others_update k E ek e e' :
  E !! ek = Some e -> e_presale e = k -> e_presale e' = k -> others_kept k E (<[ek := e']> E).
Proof.
  intros He Hk Hk'. split.
  - intros k' f i Hne. eapply esum_other_update; [eassumption|congruence|congruence].
  - intros x y Hxy Hy. apply lookup_insert_Some in Hxy as [[_ <-]|[_ Hxy]]; [contradiction|assumption].
Qed.
Lemma others_insert k E ek e :
  E !! ek = None -> e_presale e = k -> others_kept k E (<[ek := e]> E).
Proof.
  intros He Hk. split.
  - intros k' f i Hne. apply esum_other_insert; [assumption|congruence].
  - intros x y Hxy Hy. apply lookup_insert_Some in Hxy as [[_ <-]|[_ Hxy]]; [contradiction|assumption].
Qed.
Lemma others_delete k E ek e :
  E !! ek = Some e -> e_presale e = k -> others_kept k E (delete ek E).
Proof.
  intros He Hk. split.
  - intros k' f i Hne. eapply esum_other_delete; [eassumption|congruence].
  - intros x y Hxy Hy. apply lookup_delete_Some in Hxy as [_ Hxy]. assumption.
Qed.

(** Two presales do not share vaults. *)
Lemma vault_sep k k' : k' <> k ->
  PQuoteVault k' <> PQuoteVault k /\ PQuoteVault k' <> PBaseVault k /\
  PBaseVault k' <> PQuoteVault k /\ PBaseVault k' <> PBaseVault k.
Proof. intros Hne. repeat split; congruence. Qed.

Lemma inv_one w w' k p p' :
  inv w -> w_presales w !! k = Some p ->
  w_now w' = w_now w -> w_presales w' = <[k := p']> (w_presales w) ->
  w_fixed w' = w_fixed w -> w_merkles w' = w_merkles w -> w_opers w' = w_opers w ->
  w_servers w' = w_servers w ->
  others_kept k (w_escrows w) (w_escrows w') ->
  tokens_ok w' ->
  (forall mk pr, mint_good w pr mk -> mint_good w' pr mk) ->
  (forall mk pr b v, v <> PQuoteVault k -> v <> PBaseVault k -> mint_good w pr mk ->
     vault_has w mk b v -> vault_has w' mk b v) ->
  same_terms p p' -> cfg k p' ->
  vault_has w' (p_qmint p) (qneed p') (PQuoteVault k) ->
  vault_has w' (p_bmint p) (bneed p') (PBaseVault k) ->
  acct (w_now w) k p' (w_escrows w') ->
  inv w'.
Proof.
  intros Hi Hp Hnow Hps Hfx Hmk Hop Hsv [Hos Hol] Htk Hmg Hvk Hst Hcf Hq Hb Hac.
  pose proof (i_presales _ Hi _ _ Hp) as Hok.
  assert (Hkeep : forall k' q, w_presales w !! k' = Some q ->
            exists q', w_presales w' !! k' = Some q' /\ p_wl q' = p_wl q).
  { intros k' q Hk'. rewrite Hps. destruct (decide (k' = k)) as [->|Hne].
    - rewrite lookup_insert. exists p'. split; [reflexivity|]. rewrite (t_wl_eq _ _ Hst). congruence.
    - rewrite lookup_insert_ne by congruence. eauto. }
  constructor.
  - rewrite Hnow. apply (i_now _ Hi).
  - assumption.
  - intros k' q Hk'. rewrite Hps in Hk'.
    apply lookup_insert_Some in Hk' as [[<- <-]|[Hne Hk']].
    + constructor.
      * assumption.
      * rewrite (t_qprog_eq _ _ Hst), (t_qmint_eq _ _ Hst). apply Hmg, (q_qmint _ _ _ Hok).
      * rewrite (t_bprog_eq _ _ Hst), (t_bmint_eq _ _ Hst). apply Hmg, (q_bmint _ _ _ Hok).
      * rewrite (t_qmint_eq _ _ Hst). assumption.
      * rewrite (t_bmint_eq _ _ Hst). assumption.
      * rewrite Hnow. assumption.
    + pose proof (i_presales _ Hi _ _ Hk') as Hok'.
      destruct (vault_sep k k') as (S1 & S2 & S3 & S4); [congruence|].
      constructor.
      * apply (q_cfg _ _ _ Hok').
      * apply Hmg, (q_qmint _ _ _ Hok').
      * apply Hmg, (q_bmint _ _ _ Hok').
      * eapply Hvk; try assumption; [apply (q_qmint _ _ _ Hok')|apply (q_qvault _ _ _ Hok')].
      * eapply Hvk; try assumption; [apply (q_bmint _ _ _ Hok')|apply (q_bvault _ _ _ Hok')].
      * rewrite Hnow. eapply acct_frame; [apply (q_acct _ _ _ Hok')| |].
        -- intros f i. apply Hos. congruence.
        -- intros ek e He Hek. apply Hol; [assumption|congruence].
  - intros ek e He. destruct (decide (e_presale e = k)) as [->|Hne].
    + exists p'. rewrite Hps, lookup_insert. reflexivity.
    + apply Hol in He; [|assumption]. destruct (i_escrows _ Hi _ _ He) as [q Hq'].
      destruct (Hkeep _ _ Hq') as (q' & Hq1 & _). eauto.
  - rewrite Hfx. apply (i_fixed _ Hi).
  - rewrite Hop. apply (i_opers _ Hi).
  - rewrite Hmk. intros x c Hx. destruct (i_merkles _ Hi _ _ Hx) as (? & q & Hq1 & Hq2).
    split; [assumption|]. destruct (Hkeep _ _ Hq1) as (q' & Hq3 & Hq4). exists q'. split; [assumption|lia].
  - rewrite Hsv. intros x c Hx. destruct (i_servers _ Hi _ _ Hx) as (? & q & Hq1).
    split; [assumption|]. destruct (Hkeep _ _ Hq1) as (q' & Hq3 & _). eauto.
Qed.

(** Operations on tokens and mints only. *)
Lemma inv_env w w' : inv w -> same_rest w w' -> tokens_ok w' -> vaults_kept w w' -> inv w'.
Proof.
  intros Hi (Hn & Hp & He & Hf & Hm & Ho & Hs) Ht [Hv Hg].
  constructor.
  - rewrite Hn. apply (i_now _ Hi).
  - assumption.
  - rewrite Hp. intros k p Hk. pose proof (i_presales _ Hi _ _ Hk) as Hok. constructor.
    + apply (q_cfg _ _ _ Hok).
    + apply Hg, (q_qmint _ _ _ Hok).
    + apply Hg, (q_bmint _ _ _ Hok).
    + eapply Hv; [apply (q_qmint _ _ _ Hok)|apply (q_qvault _ _ _ Hok)].
    + eapply Hv; [apply (q_bmint _ _ _ Hok)|apply (q_bvault _ _ _ Hok)].
    + rewrite Hn, He. apply (q_acct _ _ _ Hok).
  - rewrite He, Hp. apply (i_escrows _ Hi).
  - rewrite Hf. apply (i_fixed _ Hi).
  - rewrite Ho. apply (i_opers _ Hi).
  - rewrite Hm, Hp. apply (i_merkles _ Hi).
  - rewrite Hs, Hp. apply (i_servers _ Hi).
Qed.

(** Operations on the auxiliary accounts only. *)
Lemma inv_aux w w' :
  inv w -> w_now w' = w_now w -> w_presales w' = w_presales w -> w_escrows w' = w_escrows w ->
  w_tokens w' = w_tokens w -> w_mints w' = w_mints w ->
  (forall k x, w_fixed w' !! k = Some x ->
    k = PFixedArgs (x_presale x) /\ 0 < x_qprice x <= U128MAX /\
    (x_disable_withdraw x = 0 \/ x_disable_withdraw x = 1)) ->
  (forall k o, w_opers w' !! k = Some o -> k = POperator (o_creator o) (o_owner o)) ->
  (forall k c, w_merkles w' !! k = Some c ->
    k = PMerkle (k_presale c) (k_version c) /\
    exists p, w_presales w !! k_presale c = Some p /\ p_wl p = 1) ->
  (forall k s, w_servers w' !! k = Some s ->
    k = PServer (s_presale s) /\ exists p, w_presales w !! s_presale s = Some p) ->
  inv w'.
Proof.
  intros Hi Hn Hp He Ht Hmt Hf Ho Hm Hs.
  assert (Hvk : vaults_kept w w') by (apply vaults_kept_ext; assumption).
  constructor.
  - rewrite Hn. apply (i_now _ Hi).
  - eapply tokens_ok_ext; try eassumption. apply (i_tokens _ Hi).
  - rewrite Hp. intros k p Hk. pose proof (i_presales _ Hi _ _ Hk) as Hok. destruct Hvk as [Hv Hg].
    constructor.
    + apply (q_cfg _ _ _ Hok).
    + apply Hg, (q_qmint _ _ _ Hok).
    + apply Hg, (q_bmint _ _ _ Hok).
    + eapply Hv; [apply (q_qmint _ _ _ Hok)|apply (q_qvault _ _ _ Hok)].
    + eapply Hv; [apply (q_bmint _ _ _ Hok)|apply (q_bvault _ _ _ Hok)].
    + rewrite Hn, He. apply (q_acct _ _ _ Hok).
  - rewrite He, Hp. apply (i_escrows _ Hi).
  - assumption.
  - assumption.
  - rewrite Hp. assumption.
  - rewrite Hp. assumption.
Qed.

(** * Payments *)
Record pays (w w1 : world) (v : addr) (n : Z) : Prop := {
  pay_rest : same_rest w w1;
  pay_tokens : tokens_ok w1;
  pay_other : forall x b u, u <> v -> vault_has w x b u -> vault_has w1 x b u;
  pay_vault : forall x b, vault_has w x b v -> vault_has w1 x (b - n) v;
  pay_mint : forall x pr, mint_good w pr x -> mint_good w1 pr x
}.

Lemma transfer_pays w pr v mk dst n ok w1 fx :
  tokens_ok w -> 0 <= n -> tok_transfer w pr v mk dst PAuth n ok = Ok (w1, fx) -> pays w w1 v n.
Proof.
  intros Ht Hn Hx. destruct (tok_transfer_out _ _ _ _ _ _ _ _ _ Ht Hn Hx) as (? & ? & ?).
  constructor; auto; [eapply tok_transfer_rest; eassumption|eapply tok_transfer_ok; eassumption].
Qed.
Lemma burn_pays w pr v mk n w1 fx :
  tokens_ok w -> 0 <= n -> tok_burn w pr v mk PAuth n = Ok (w1, fx) -> pays w w1 v n.
Proof.
  intros Ht Hn Hx. destruct (tok_burn_out _ _ _ _ _ _ _ Hx) as (? & ? & ?).
  constructor; auto; [eapply tok_burn_rest; eassumption|eapply tok_burn_ok; eassumption].
Qed.
Lemma paid_pays w pr v mk dst n ok w1 fx :
  tokens_ok w -> 0 <= n -> paid w pr v mk dst n ok w1 fx -> pays w w1 v n.
Proof.
  intros Ht Hn [[_ Hx]|[Hz [-> _]]]; [eapply transfer_pays; eassumption|].
  assert (n = 0) as -> by lia. constructor; auto.
  - apply same_rest_refl.
  - intros x b. rewrite Z.sub_0_r. auto.
Qed.

(** * Sums that do not depend on refunds, claims and counters *)
Lemma lsum_set_ext {A} (f : A -> Z) l j r r' :
  l !! j = Some r -> f r' = f r -> lsum f (<[j := r']> l) = lsum f l.
Proof. intros Hl Hf. rewrite (lsum_update _ _ _ r) by assumption. lia. Qed.

Lemma reg_fee_excess_ext p p' r r' :
  p_deposit p' = p_deposit p -> p_max_cap p' = p_max_cap p -> r_deposit r' = r_deposit r ->
  r_fee r' = r_fee r -> reg_fee_excess p' r' = reg_fee_excess p r.
Proof. intros H1 H2 H3 H4. unfold reg_fee_excess, reg_excess, excess. rewrite H1, H2, H3, H4. reflexivity. Qed.

Lemma fee_income_ext p p' j r r' :
  p_deposit p' = p_deposit p -> p_max_cap p' = p_max_cap p ->
  p_regs p !! j = Some r -> p_regs p' = <[j := r']> (p_regs p) ->
  r_deposit r' = r_deposit r -> r_fee r' = r_fee r -> fee_income p' = fee_income p.
Proof.
  intros H1 H2 H3 H4 H5 H6. unfold fee_income. rewrite H4.
  transitivity (lsum (fun r => r_fee r - reg_fee_excess p r) (<[j := r']> (p_regs p))).
  - apply lsum_ext. intros x _. f_equal. apply reg_fee_excess_ext; auto.
  - eapply lsum_set_ext; [eassumption|]. cbv beta. rewrite H6. f_equal. apply reg_fee_excess_ext; auto.
Qed.
Lemma sold_ext p p' r r' :
  p_mode p' = p_mode p -> p_raw0 p' = p_raw0 p -> r_deposit r' = r_deposit r ->
  r_supply r' = r_supply r -> sold p' r' = sold p r.
Proof. intros H1 H2 H3 H4. unfold sold. rewrite H1, H2, H3, H4. reflexivity. Qed.
Lemma unsold_ext p p' j r r' :
  p_supply p' = p_supply p -> p_mode p' = p_mode p -> p_raw0 p' = p_raw0 p ->
  p_regs p !! j = Some r -> p_regs p' = <[j := r']> (p_regs p) ->
  r_deposit r' = r_deposit r -> r_supply r' = r_supply r -> unsold p' = unsold p.
Proof.
  intros H1 H2 H3 H4 H5 H6 H7. unfold unsold, total_sold. rewrite H1, H5. f_equal.
  transitivity (lsum (sold p) (<[j := r']> (p_regs p))).
  - apply lsum_ext. intros x _. apply sold_ext; auto.
  - eapply lsum_set_ext; [eassumption|]. apply sold_ext; auto.
Qed.

(** * Escrow facts *)
Lemma esc_le_reg now k p E ek e r :
  acct now k p E -> E !! ek = Some e -> e_presale e = k -> p_regs p !! Z.to_nat (e_idx e) = Some r ->
  0 <= e_deposit e <= r_deposit r /\ 0 <= e_fee e <= r_fee r.
Proof.
  intros Ha He Hk Hr. pose proof (a_esc _ _ _ _ Ha _ _ He Hk) as Hs.
  destruct (a_open _ _ _ _ Ha _ _ Hr) as [H1 H2]. unfold closed_deposit, closed_fee in *.
  assert (Hi : e_idx e = Z.of_nat (Z.to_nat (e_idx e))).
  { destruct (s_idx _ _ _ _ _ Hs). lia. }
  assert (e_deposit e <= esum k (Z.to_nat (e_idx e)) e_deposit E).
  { eapply esum_member; try eassumption. intros ek' e' He' Hk' _.
    destruct (a_esc _ _ _ _ Ha _ _ He' Hk'). lia. }
  assert (e_fee e <= esum k (Z.to_nat (e_idx e)) e_fee E).
  { eapply esum_member; try eassumption. intros ek' e' He' Hk' _.
    destruct (a_esc _ _ _ _ Ha _ _ He' Hk'). lia. }
  destruct Hs. lia.
Qed.

(** * Deposit quota *)
Lemma personal_inv e mx n : esc_remaining_quota e mx = Ok n -> 0 < n ->
  e_deposit e + n <= mx /\ e_deposit e + n <= e_cap e.
Proof.
  unfold esc_remaining_quota. destruct (Z.leb_spec (Z.min mx (e_cap e)) (e_deposit e)); intros H1 H2.
  - apply Ok_inj in H1. lia.
  - apply safe_sub_Ok in H1. lia.
Qed.

Lemma quota_inv k p hh e r n :
  cfg k p -> get_handler p = Ok hh -> p_regs p !! Z.to_nat (e_idx e) = Some r ->
  0 <= r_deposit r <= U64MAX -> 0 <= r_supply r ->
  handler_remaining_quota hh p e = Ok n -> 0 < n ->
  e_deposit e + n <= r_max_cap r /\ e_deposit e + n <= e_cap e /\
  (p_mode p <> 1 -> p_deposit p + n <= p_max_cap p) /\
  (p_mode p = 0 -> bought (p_raw0 p) (r_deposit r) < r_supply r /\
    n <= div_ceil ((r_supply r - bought (p_raw0 p) (r_deposit r)) * p_raw0 p) scale).
Proof.
  intros Hc Hh Hr Hd Hs Hq Hn.
  apply handler_mode in Hh as [[Hm ->]|[[Hm ->]|[Hm ->]]]; cbn [handler_remaining_quota] in Hq.
  - unfold fixed_remaining_quota, presale_remaining_quota in Hq.
    bi Hq g Hg. apply safe_sub_Ok in Hg as [-> Hg].
    bi Hq r' Hr'. apply get_reg_Ok in Hr'. assert (r' = r) as -> by congruence.
    bi Hq s Hs'.
    destruct (c_price _ _ Hc Hm) as (Hq0 & _).
    assert (Hsold : s = Z.min (bought (p_raw0 p) (r_deposit r)) (r_supply r)).
    { destruct (Z.ltb_spec 0 (r_deposit r)).
      - rewrite token_bought_ok in Hs' by lia. cbn [rbind] in Hs'. bi Hs' b Hb. apply cast64_Ok in Hb as [-> _].
        apply Ok_inj in Hs'. auto.
      - assert (r_deposit r = 0) as -> by lia. apply Ok_inj in Hs'. subst s.
        unfold bought. rewrite Z.mul_0_l, Zdiv.Zdiv_0_l. lia. }
    destruct (Z.eqb_spec s (r_supply r)); [apply Ok_inj in Hq; lia|].
    bi Hq rem Hrem. apply safe_sub_Ok in Hrem as [-> Hrem].
    bi Hq m Hmm. apply safe_mul_Ok in Hmm as [-> _].
    bi Hq rq Hrq. apply cast64_Ok in Hrq as [-> _]. bi Hq pe Hpe. apply Ok_inj in Hq.
    assert (Hmin : bought (p_raw0 p) (r_deposit r) < r_supply r) by lia.
    rewrite Z.min_l in Hsold by lia. subst s.
    change SCALE_MULTIPLIER with scale in Hq.
    apply personal_inv in Hpe; lia.
  - bi Hq r' Hr'. apply get_reg_Ok in Hr'. assert (r' = r) as -> by congruence.
    apply personal_inv in Hq; [|assumption]. lia.
  - bi Hq g Hg. apply safe_sub_Ok in Hg as [-> Hg].
    bi Hq r' Hr'. apply get_reg_Ok in Hr'. assert (r' = r) as -> by congruence.
    bi Hq pe Hpe. apply Ok_inj in Hq. apply personal_inv in Hpe; lia.
Qed.

Lemma suggest_deposit_inv k p hh x n :
  cfg k p -> get_handler p = Ok hh -> 0 <= x <= U64MAX -> handler_suggest_deposit hh x = Ok n ->
  0 <= n <= x /\ (p_mode p = 0 -> n = div_ceil (bought (p_raw0 p) x * p_raw0 p) scale) /\
  (p_mode p <> 0 -> n = x).
Proof.
  intros Hc Hh Hx Hn. apply handler_mode in Hh as [[Hm ->]|[[Hm ->]|[Hm ->]]]; cbn in Hn.
  - destruct (c_price _ _ Hc Hm) as (Hq0 & _). apply without_surplus_inv in Hn; lia.
  - apply Ok_inj in Hn. lia.
  - apply Ok_inj in Hn. lia.
Qed.
Lemma suggest_withdraw_inv k p hh e x n :
  cfg k p -> get_handler p = Ok hh -> handler_can_withdraw hh = true -> 0 <= x <= U64MAX ->
  handler_suggest_withdraw hh e x = Ok n ->
  0 <= n <= x /\ p_mode p <> 2 /\
  (p_mode p = 0 -> (x = e_deposit e /\ n = x) \/
     (x <> e_deposit e /\ n = div_ceil (bought (p_raw0 p) x * p_raw0 p) scale)) /\
  (p_mode p <> 0 -> n = x).
Proof.
  intros Hc Hh Hw Hx Hn. apply handler_mode in Hh as [[Hm ->]|[[Hm ->]|[Hm ->]]]; cbn in Hn.
  - destruct (c_price _ _ Hc Hm) as (Hq0 & _).
    destruct (Z.eqb_spec (e_deposit e) x); [apply Ok_inj in Hn; lia|].
    apply without_surplus_inv in Hn; lia.
  - apply Ok_inj in Hn. lia.
  - discriminate.
Qed.

(** * Early end *)
Lemma end_if_inv hh p now p2 :
  handler_end_if_max_cap hh p now = Ok p2 ->
  p2 = p \/
  (p_max_cap p <= p_deposit p /\ hh <> HProrata /\
   now + p_lock p + p_vest p <= U64MAX /\ now + Z.max 0 (p_imm_ts p - p_end p) <= U64MAX /\
   p2 = set_p_imm_ts (now + Z.max 0 (p_imm_ts p - p_end p))
          (set_p_ve (now + p_lock p + p_vest p) (set_p_vs (now + p_lock p) (set_p_end now p)))).
Proof.
  assert (Hgen : forall b, end_if_max_cap_reached p b now = Ok p2 ->
    p2 = p \/
    (p_max_cap p <= p_deposit p /\
     now + p_lock p + p_vest p <= U64MAX /\ now + Z.max 0 (p_imm_ts p - p_end p) <= U64MAX /\
     p2 = set_p_imm_ts (now + Z.max 0 (p_imm_ts p - p_end p))
          (set_p_ve (now + p_lock p + p_vest p) (set_p_vs (now + p_lock p) (set_p_end now p))))).
  { intros b Hb. unfold end_if_max_cap_reached, recalculate_timing, vest_lock_timings, sat_sub in Hb.
    destruct b; [apply Ok_inj in Hb; auto|].
    destruct (Z.leb_spec (p_max_cap p) (p_deposit p)); [|apply Ok_inj in Hb; auto].
    right. bi Hb x Hx. destruct x as [vs ve]. bi Hx a Ha. apply safe_add_Ok in Ha as [-> Ha].
    bi Hx c Hcc. apply safe_add_Ok in Hcc as [-> Hcc]. apply Ok_inj in Hx. injection Hx as <- <-.
    bi Hb i Hi. apply safe_add_Ok in Hi as [-> Hi]. apply Ok_inj in Hb. auto. }
  destruct hh; cbn; intros Hx.
  - apply Hgen in Hx as [?|(? & ? & ? & ?)]; [auto|]. right. split; [assumption|]. split; [discriminate|auto].
  - apply Ok_inj in Hx. auto.
  - apply Hgen in Hx as [?|(? & ? & ? & ?)]; [auto|]. right. split; [assumption|]. split; [discriminate|auto].
Qed.

Lemma cfg_end_if k hh p now p2 :
  cfg k p -> p_start p <= now < p_end p -> handler_end_if_max_cap hh p now = Ok p2 ->
  cfg k p2 /\ same_terms p p2.
Proof.
  intros Hc Hn H2. apply end_if_inv in H2 as [->|(Hge & _ & H64 & Himm & Hp2)].
  { split; [assumption|apply same_terms_refl]. }
  assert (Hst : same_terms p p2) by (subst p2; constructor; reflexivity).
  split; [|assumption].
  pose proof (cfg_zero_tail _ _ Hc) as Hz.
  pose proof (c_vs _ _ Hc). pose proof (c_imm _ _ Hc). pose proof (c_imm_end _ _ Hc).
  pose proof (c_dur _ _ Hc). pose proof (c_time _ _ Hc).
  eapply cfg_retime; try eassumption; try (subst p2; cbn; lia).
  subst p2. exact Hz.
Qed.

(** The parts of the state a token operation leaves alone. *)
Lemma upd_both w w1 k p' ek e' :
  same_rest w w1 ->
  let w' := upd_escrow ek e' (upd_presale k p' w1) in
  w_now w' = w_now w /\ w_presales w' = <[k := p']> (w_presales w) /\
  w_escrows w' = <[ek := e']> (w_escrows w) /\
  w_fixed w' = w_fixed w /\ w_merkles w' = w_merkles w /\ w_opers w' = w_opers w /\
  w_servers w' = w_servers w /\ w_tokens w' = w_tokens w1 /\ w_mints w' = w_mints w1.
Proof. intros (H1 & H2 & H3 & H4 & H5 & H6 & H7). cbn. rewrite H2, H3. auto 12. Qed.

Lemma kept_ext w1 w' : w_tokens w' = w_tokens w1 -> w_mints w' = w_mints w1 ->
  (forall x b v, vault_has w1 x b v -> vault_has w' x b v) /\
  (forall x pr, mint_good w1 pr x -> mint_good w' pr x) /\ (tokens_ok w1 -> tokens_ok w').
Proof.
  intros H1 H2. split; [|split].
  - unfold vault_has. rewrite H1. auto.
  - unfold mint_good. rewrite H2. auto.
  - apply tokens_ok_ext; assumption.
Qed.

Lemma inv_pay w w1 w' k p p' v n :
  inv w -> w_presales w !! k = Some p -> pays w w1 v n ->
  w_now w' = w_now w -> w_presales w' = <[k := p']> (w_presales w) ->
  w_fixed w' = w_fixed w -> w_merkles w' = w_merkles w -> w_opers w' = w_opers w ->
  w_servers w' = w_servers w -> w_tokens w' = w_tokens w1 -> w_mints w' = w_mints w1 ->
  others_kept k (w_escrows w) (w_escrows w') ->
  same_terms p p' -> cfg k p' ->
  (v = PQuoteVault k /\ qneed p' <= qneed p - n /\ bneed p' <= bneed p) \/
  (v = PBaseVault k /\ qneed p' <= qneed p /\ bneed p' <= bneed p - n) ->
  acct (w_now w) k p' (w_escrows w') ->
  inv w'.
Proof.
  intros Hi Hp Hpay Hn Hps Hf Hm Ho Hs Htk Hmt Hoth Hst Hcf Hv Hac.
  pose proof (i_presales _ Hi _ _ Hp) as Hok.
  destruct (kept_ext w1 w' Htk Hmt) as (K1 & K2 & K3).
  eapply (inv_one w w' k p p'); try eassumption.
  - apply K3, (pay_tokens _ _ _ _ Hpay).
  - intros mk pr Hg. apply K2, (pay_mint _ _ _ _ Hpay), Hg.
  - intros mk pr b u H1 H2 _ Hh. apply K1, (pay_other _ _ _ _ Hpay); [|assumption].
    destruct Hv as [[-> _]|[-> _]]; assumption.
  - apply K1. destruct Hv as [(-> & Hq & _)|(-> & Hq & _)].
    + eapply vault_has_le; [eassumption|]. apply (pay_vault _ _ _ _ Hpay), (q_qvault _ _ _ Hok).
    + eapply vault_has_le; [eassumption|]. apply (pay_other _ _ _ _ Hpay); [discriminate|].
      apply (q_qvault _ _ _ Hok).
  - apply K1. destruct Hv as [(-> & _ & Hb)|(-> & _ & Hb)].
    + eapply vault_has_le; [eassumption|]. apply (pay_other _ _ _ _ Hpay); [discriminate|].
      apply (q_bvault _ _ _ Hok).
    + eapply vault_has_le; [eassumption|]. apply (pay_vault _ _ _ _ Hpay), (q_bvault _ _ _ Hok).
Qed.

(** No payment at all. *)
Lemma pays_nothing w k : tokens_ok w -> pays w w (PQuoteVault k) 0.
Proof.
  intros Ht. constructor; auto; [apply same_rest_refl|]. intros x b. rewrite Z.sub_0_r. auto.
Qed.

Lemma inv_quiet w w' k p p' :
  inv w -> w_presales w !! k = Some p ->
  w_now w' = w_now w -> w_presales w' = <[k := p']> (w_presales w) ->
  w_fixed w' = w_fixed w -> w_merkles w' = w_merkles w -> w_opers w' = w_opers w ->
  w_servers w' = w_servers w -> w_tokens w' = w_tokens w -> w_mints w' = w_mints w ->
  others_kept k (w_escrows w) (w_escrows w') ->
  same_terms p p' -> cfg k p' -> qneed p' <= qneed p -> bneed p' <= bneed p ->
  acct (w_now w) k p' (w_escrows w') -> inv w'.
Proof.
  intros. eapply (inv_pay w w w' k p p' (PQuoteVault k) 0); try eassumption.
  - apply pays_nothing. eapply i_tokens; eassumption.
  - left. split; [reflexivity|]. lia.
Qed.

(** * Instructions on auxiliary accounts *)
Lemma pres_init_fixed w presale owner payer dw q w' l :
  inv w -> initialize_fixed_price_presale_args w presale owner payer dw q = Ok (w', l) -> inv w'.
Proof.
  intros Hi Hx. apply init_fixed_inv in Hx as (_ & _ & Hq & Hd & -> & _).
  eapply inv_aux; try eassumption; try reflexivity; cbn.
  - intros k x Hk. apply lookup_insert_Some in Hk as [[<- <-]|[_ Hk]]; [auto|].
    eapply i_fixed; eassumption.
  - apply (i_opers _ Hi).
  - apply (i_merkles _ Hi).
  - apply (i_servers _ Hi).
Qed.
Lemma pres_close_fixed w k owner w' l :
  inv w -> close_fixed_price_presale_args w k owner = Ok (w', l) -> inv w'.
Proof.
  intros Hi Hx. apply close_fixed_inv in Hx as (x & _ & _ & _ & -> & _).
  eapply inv_aux; try eassumption; try reflexivity; cbn.
  - intros k' y Hk. apply lookup_delete_Some in Hk as [_ Hk]. eapply i_fixed; eassumption.
  - apply (i_opers _ Hi).
  - apply (i_merkles _ Hi).
  - apply (i_servers _ Hi).
Qed.
Lemma pres_create_merkle w presale creator root version w' l :
  inv w -> create_merkle_root_config w presale creator root version = Ok (w', l) -> inv w'.
Proof.
  intros Hi Hx. apply create_merkle_inv in Hx as (p & Hp & _ & _ & _ & _ & Hwl & _ & _ & -> & _).
  eapply inv_aux; try eassumption; try reflexivity; cbn.
  - apply (i_fixed _ Hi).
  - apply (i_opers _ Hi).
  - intros k c Hk. apply lookup_insert_Some in Hk as [[<- <-]|[_ Hk]]; [cbn; eauto|].
    eapply i_merkles; eassumption.
  - apply (i_servers _ Hi).
Qed.
Lemma pres_close_merkle w presale k creator rr w' l :
  inv w -> close_merkle_root_config w presale k creator rr = Ok (w', l) -> inv w'.
Proof.
  intros Hi Hx. apply close_merkle_inv in Hx as (p & c & _ & _ & _ & _ & _ & _ & _ & -> & _).
  eapply inv_aux; try eassumption; try reflexivity; cbn.
  - apply (i_fixed _ Hi).
  - apply (i_opers _ Hi).
  - intros k' c' Hk. apply lookup_delete_Some in Hk as [_ Hk]. eapply i_merkles; eassumption.
  - apply (i_servers _ Hi).
Qed.
Lemma pres_create_operator w oo creator w' l :
  inv w -> create_operator w oo creator = Ok (w', l) -> inv w'.
Proof.
  intros Hi Hx. apply create_operator_inv in Hx as (_ & _ & -> & _).
  eapply inv_aux; try eassumption; try reflexivity; cbn.
  - apply (i_fixed _ Hi).
  - intros k c Hk. apply lookup_insert_Some in Hk as [[<- <-]|[_ Hk]]; [reflexivity|].
    eapply i_opers; eassumption.
  - apply (i_merkles _ Hi).
  - apply (i_servers _ Hi).
Qed.
Lemma pres_revoke_operator w k creator w' l :
  inv w -> revoke_operator w k creator = Ok (w', l) -> inv w'.
Proof.
  intros Hi Hx. apply revoke_operator_inv in Hx as (o & _ & _ & _ & -> & _).
  eapply inv_aux; try eassumption; try reflexivity; cbn.
  - apply (i_fixed _ Hi).
  - intros k' c' Hk. apply lookup_delete_Some in Hk as [_ Hk]. eapply i_opers; eassumption.
  - apply (i_merkles _ Hi).
  - apply (i_servers _ Hi).
Qed.
Lemma pres_create_server w presale owner url w' l :
  inv w -> create_permissioned_server_metadata w presale owner url = Ok (w', l) -> inv w'.
Proof.
  intros Hi Hx. apply create_server_inv in Hx as (p & Hp & _ & _ & _ & _ & _ & -> & _).
  eapply inv_aux; try eassumption; try reflexivity; cbn.
  - apply (i_fixed _ Hi).
  - apply (i_opers _ Hi).
  - apply (i_merkles _ Hi).
  - intros k c Hk. apply lookup_insert_Some in Hk as [[<- <-]|[_ Hk]]; [cbn; eauto|].
    eapply i_servers; eassumption.
Qed.
Lemma pres_close_server w presale k owner rr w' l :
  inv w -> close_permissioned_server_metadata w presale k owner rr = Ok (w', l) -> inv w'.
Proof.
  intros Hi Hx. apply close_server_inv in Hx as (p & s & _ & _ & _ & _ & _ & _ & -> & _).
  eapply inv_aux; try eassumption; try reflexivity; cbn.
  - apply (i_fixed _ Hi).
  - apply (i_opers _ Hi).
  - apply (i_merkles _ Hi).
  - intros k' c' Hk. apply lookup_delete_Some in Hk as [_ Hk]. eapply i_servers; eassumption.
Qed.

(** * Escrow creation and closing *)
Lemma pres_finish_create w p presale owner idx cap w' l :
  inv w -> w_presales w !! presale = Some p -> 0 <= idx ->
  finish_create_escrow w p presale owner idx cap = Ok (w', l) -> inv w'.
Proof.
  intros Hi Hp Hidx Hx.
  apply finish_create_inv in Hx as (r & Hn & Ho & Hlt & Hr & Hcap & _ & _ & -> & _).
  pose proof (i_presales _ Hi _ _ Hp) as Hok. pose proof (q_cfg _ _ _ Hok) as Hc.
  set (p' := set_p_escrows _ _).
  assert (Hreg : p_regs p' = <[Z.to_nat idx := set_r_escrows (r_escrows r + 1) r]> (p_regs p)) by reflexivity.
  assert (Hst : same_terms p p').
  { eapply same_terms_trans; [eapply (set_reg_terms p idx r (set_r_escrows (r_escrows r + 1) r)); [eassumption|reflexivity]|].
    constructor; reflexivity. }
  assert (Hfee : fee_income p' = fee_income p) by (eapply fee_income_ext; try eassumption; reflexivity).
  assert (Huns : unsold p' = unsold p) by (eapply unsold_ext; try eassumption; reflexivity).
  eapply (inv_quiet w _ presale p p'); try eassumption; try reflexivity.
  - cbn. apply others_insert; [assumption|reflexivity].
  - eapply cfg_same; try eassumption; [constructor; reflexivity|].
    intros i x Hx. eapply (zero_tail_set p idx r); [apply (cfg_zero_tail _ _ Hc)|lia|eassumption|exact Hx].
  - unfold qneed. rewrite Hfee. reflexivity.
  - unfold bneed. rewrite Huns. reflexivity.
  - cbn. apply acct_create; try assumption.
    + apply (q_acct _ _ _ Hok).
    + destruct Ho. assumption.
    + lia.
    + assert (0 < r_max_cap r).
      { destruct (c_regs _ _ Hc _ _ Hr) as [Hx|[Hx _]]; [lia|]. rewrite Z2Nat.id in Hx by lia. lia. }
      destruct cap as [c|]; cbn; [|lia]. destruct (Hcap c eq_refl). lia.
Qed.

Lemma reg0_exists k p : cfg k p -> exists r, p_regs p !! 0%nat = Some r.
Proof. intros Hc. pose proof (c_len _ _ Hc). destruct (p_regs p); [discriminate|]. eexists. reflexivity. Qed.

Lemma pres_permissionless w presale owner payer w' l :
  inv w -> create_permissionless_escrow w presale owner payer = Ok (w', l) -> inv w'.
Proof.
  intros Hi Hx. apply create_permissionless_inv in Hx as (p & Hp & _ & _ & Hx).
  eapply pres_finish_create; [exact Hi|exact Hp| |exact Hx]. lia.
Qed.
Lemma pres_authority w presale owner oper oowner payer idx cap w' l :
  inv w -> create_permissioned_escrow_with_creator w presale owner oper oowner payer idx cap = Ok (w', l) ->
  inv w'.
Proof.
  intros Hi Hx. apply create_authority_inv in Hx as (p & o & Hp & _ & _ & _ & _ & _ & _ & Hidx & _ & Hx).
  eapply pres_finish_create; [exact Hi|exact Hp| |exact Hx]. lia.
Qed.
Lemma pres_merkle_escrow `{Crypto} w presale owner config payer proof idx cap w' l :
  inv w ->
  create_permissioned_escrow_with_merkle_proof w presale owner config payer proof idx cap = Ok (w', l) ->
  inv w'.
Proof.
  intros Hi Hx.
  apply create_merkle_escrow_inv in Hx as (p & c & Hp & _ & _ & _ & _ & _ & _ & Hidx & _ & Hx).
  eapply pres_finish_create; [exact Hi|exact Hp| |exact Hx]. lia.
Qed.

(** What [ensure_done_claim_and_refund] guarantees. *)
Lemma done_inv now k p E ek e r :
  cfg k p -> acct now k p E -> 0 <= now -> succeeded p now ->
  E !! ek = Some e -> e_presale e = k -> p_regs p !! Z.to_nat (e_idx e) = Some r ->
  ensure_done_claim_and_refund p e now = Ok tt ->
  e_claimed e = final p r (e_deposit e) /\
  (e_withdrawn e = 1 \/ share_deposit p r (e_deposit e) + share_fee p r (e_fee e) = 0).
Proof.
  intros Hc Ha Hnow Hs He Hk Hr Hx.
  pose proof (a_books _ _ _ _ Ha) as Hb. pose proof (a_caps _ _ _ _ Ha) as Hkp.
  destruct (esc_le_reg _ _ _ _ _ _ _ Ha He Hk Hr) as [Hd Hf].
  unfold ensure_done_claim_and_refund in Hx. bi Hx u Hu.
  bi Hx hh Hhh. bi Hx ve Hve. apply safe_add_Ok in Hve as [-> Hve]. bi Hx tt' Htt.
  apply require_Ok in Hx. clean_bool.
  assert (0 <= p_vs p + p_vest p).
  { pose proof (c_vs _ _ Hc). pose proof (c_dur _ _ Hc). pose proof (c_time _ _ Hc). lia. }
  rewrite (cumulative_spec k p E Hc Hb Hkp hh e r) in Htt; try assumption.
  apply Ok_inj in Htt.
  rewrite (entitled_final k p (Z.to_nat (e_idx e)) r) in Htt; [|assumption|exact Hr|lia|lia].
  split; [congruence|].
  destruct (books_reg_le _ _ _ _ _ Hb Hr) as ([Hrd0 Hrd] & [Hrf0 Hrf] & _).
  pose proof (c_caps _ _ Hc).
  destruct (Z.eq_dec (p_mode p) 1) as [Hm|Hm].
  - rewrite (remaining_completed k p E Hc Hb e r now) in Hu; try assumption.
    assert (0 <= share_deposit p r (e_deposit e)) by (apply share_deposit_range; lia).
    assert (0 <= share_fee p r (e_fee e)) by (apply share_fee_range; lia).
    destruct ((0 <? share_deposit p r (e_deposit e)) || (0 <? share_fee p r (e_fee e))) eqn:Hz.
    + apply require_Ok in Hu. unfold esc_is_withdrawn in Hu. clean_bool. auto.
    + right. lia.
  - right. destruct (no_share p Hkp r (e_deposit e) (e_fee e) Hm) as [-> ->]. reflexivity.
Qed.

Lemma pres_close_escrow w k ek owner rr w' l :
  inv w -> close_escrow w k ek owner rr = Ok (w', l) -> inv w'.
Proof.
  intros Hi Hx.
  apply close_escrow_inv in Hx as (p & e & r & Hnow & Hp & He & Hk & _ & _ & _ & Hr & Hph & _ & _ & -> & _).
  pose proof (i_presales _ Hi _ _ Hp) as Hok. pose proof (q_cfg _ _ _ Hok) as Hc.
  pose proof (q_acct _ _ _ Hok) as Ha. pose proof (a_esc _ _ _ _ Ha _ _ He Hk) as Hs.
  set (p' := set_p_escrows _ _).
  assert (Hreg : p_regs p' = <[Z.to_nat (e_idx e) := set_r_escrows (r_escrows r - 1) r]> (p_regs p)) by reflexivity.
  assert (Hst : same_terms p p').
  { eapply same_terms_trans; [eapply (set_reg_terms p (e_idx e) r (set_r_escrows (r_escrows r - 1) r)); [eassumption|reflexivity]|].
    constructor; reflexivity. }
  assert (Hfee : fee_income p' = fee_income p) by (eapply fee_income_ext; try eassumption; reflexivity).
  assert (Huns : unsold p' = unsold p) by (eapply unsold_ext; try eassumption; reflexivity).
  eapply (inv_quiet w _ k p p'); try eassumption; try reflexivity.
  - cbn. eapply others_delete; eassumption.
  - eapply cfg_same; try eassumption; [constructor; reflexivity|].
    intros i x Hx. eapply (zero_tail_set p (e_idx e) r); [apply (cfg_zero_tail _ _ Hc)| |eassumption|exact Hx].
    apply (s_idx _ _ _ _ _ Hs).
  - unfold qneed. rewrite Hfee. reflexivity.
  - unfold bneed. rewrite Huns. reflexivity.
  - cbn. apply acct_close; try assumption.
    + intros Hlt. destruct Hph as [(_ & ? & ?)|[(Hg & _)|(Hg & _)]]; [auto| |].
      * apply progress_failed in Hg as [_ [? _]]. lia.
      * apply progress_completed in Hg as [_ [? _]]. lia.
    + intros Hge Hlow. destruct Hph as [(Hg & ? & ?)|[(Hg & ?)|(Hg & _)]]; [auto|assumption|].
      apply progress_completed in Hg as [_ [_ ?]]. lia.
    + intros Hge Hhigh. destruct Hph as [(Hg & ? & ?)|[(Hg & ?)|(Hg & Hdone)]].
      * apply progress_ongoing in Hg as [_ ?]. lia.
      * apply progress_failed in Hg as [_ [_ ?]]. lia.
      * apply progress_completed in Hg as [_ Hsu]. eapply done_inv; try eassumption.
Qed.

(** * Deposit *)
Lemma fresh_refunded k p E : books k p E -> fresh k p E -> p_refunded p = 0 /\ p_claimed p = 0.
Proof.
  intros Hb Hf.
  assert (Hz : forall f, (forall i r, p_regs p !! i = Some r -> f r = 0) -> lsum f (p_regs p) = 0).
  { intros f Hz. rewrite (lsum_ext f (fun _ => 0)); [apply lsum_zero|].
    intros x Hin. apply elem_of_list_lookup_1 in Hin as [i Hx]. eauto. }
  split.
  - rewrite (b_refunded _ _ _ Hb). apply Hz. intros i r Hr. destruct (f_reg _ _ _ Hf _ _ Hr) as (_ & _ & _ & ?). assumption.
  - rewrite (b_claimed _ _ _ Hb). apply Hz. intros i r Hr. destruct (f_reg _ _ _ Hf _ _ Hr) as (_ & _ & ? & _). assumption.
Qed.

Lemma fresh_need k p E : books k p E -> fresh k p E ->
  qneed p = p_deposit p + p_fee p /\ bneed p = p_supply p.
Proof.
  intros Hb Hf. destruct (fresh_refunded _ _ _ Hb Hf) as [H1 H2].
  destruct (f_flags _ _ _ Hf) as (H3 & H4 & H5). unfold qneed, bneed. rewrite H1, H2, H3, H4, H5. cbn. lia.
Qed.

(** A presale whose payouts have not started, whatever its deposits. *)
Lemma unpaid_need p : p_refunded p = 0 -> p_claimed p = 0 -> p_cwd p = 0 -> p_fee_col p = 0 ->
  p_unsold_done p = 0 -> qneed p = p_deposit p + p_fee p /\ bneed p = p_supply p.
Proof. intros H1 H2 H3 H4 H5. unfold qneed, bneed. rewrite H1, H2, H3, H4, H5. cbn. lia. Qed.

Lemma fixed_room q dep sup amount :
  0 < q -> 0 <= dep -> bought q dep < sup ->
  amount <= div_ceil ((sup - bought q dep) * q) scale ->
  (dep + amount) * scale < (sup + 1) * q + scale.
Proof.
  intros Hq Hd Hlt Hle. pose proof (div_ceil_bounds ((sup - bought q dep) * q) scale ltac:(unfold scale; lia)) as Hb.
  assert (dep * scale < (bought q dep + 1) * q).
  { unfold bought. pose proof (Z.mul_succ_div_gt (dep * scale) q Hq). lia. }
  assert (0 < scale) by (unfold scale; lia).
  generalize dependent (bought q dep). generalize scale. intros s b. intros. nia.
Qed.

Lemma pres_deposit w k qv qm ek pt payer pr mx h w' l :
  inv w -> deposit w k qv qm ek pt payer pr mx h = Ok (w', l) -> inv w'.
Proof.
  intros Hi Hx. apply deposit_inv in Hx as
    (p & e & r & m & hh & quota & amount & fee & p2 & gross & hooks & rest & w1 & fx &
     Hmx & Hnow & Hp & Hqv & Hqm & Hm & He & Hk & Hpay & Hop & Hhh & Hquota & Hpos & Hsug & Hapos &
     Hr & Hfee & Hpd & Hpf & Hrd & Hrf & Hed & Hef & Hval & Hend & Hgross & _ & _ & Htr & -> & _).
  pose proof (i_presales _ Hi _ _ Hp) as Hok. pose proof (q_cfg _ _ _ Hok) as Hc.
  pose proof (q_acct _ _ _ Hok) as Ha. pose proof (a_esc _ _ _ _ Ha _ _ He Hk) as Hs.
  pose proof (a_books _ _ _ _ Ha) as Hb. pose proof (a_caps _ _ _ _ Ha) as Hkp.
  destruct Hop as [Hst Hen]. pose proof (a_fresh _ _ _ _ Ha Hen) as Hfr.
  destruct (fresh_refunded _ _ _ Hb Hfr) as [Href Hcl].
  destruct (f_flags _ _ _ Hfr) as (Hf1 & Hf2 & Hf3).
  destruct (fresh_need _ _ _ Hb Hfr) as [Hqn Hbn].
  destruct (reg_u64 k p _ Hb _ _ Hr) as [Hru _].
  pose proof (reg_supply_nonneg _ _ _ _ Hc Hr) as Hsup.
  destruct (s_idx _ _ _ _ _ Hs) as [Hi0 Hi1].
  assert (Hrc : 0 <= r_fee_bps r <= MAX_DEPOSIT_FEE_BPS).
  { destruct (c_regs _ _ Hc _ _ Hr) as [Hz|[Hz _]]; [unfold MAX_DEPOSIT_FEE_BPS; lia|].
    rewrite Z2Nat.id in Hz by lia. lia. }
  assert (Hmin : 0 <= Z.min quota mx <= U64MAX) by lia.
  assert (Ham0 : 0 <= amount) by lia.
  destruct (suggest_deposit_inv _ _ _ _ _ Hc Hhh Hmin Hsug) as (Hsle & _ & _).
  destruct (quota_inv _ _ _ _ _ _ Hc Hhh Hr Hru Hsup Hquota ltac:(lia)) as (Q1 & Q2 & Q3 & Q4).
  destruct (deposit_fee_spec _ _ _ _ _ Ham0 Hrc Hfee) as (Hfee0 & _ & Hinc & _).
  set (p1 := deposited p e r amount fee) in *.
  set (r' := set_r_fee (r_fee r + fee) (set_r_deposit (r_deposit r + amount) r)).
  assert (Hreg1 : p_regs p1 = <[Z.to_nat (e_idx e) := r']> (p_regs p)) by reflexivity.
  assert (Hst1 : same_terms p p1).
  { eapply same_terms_trans; [eapply (set_reg_terms p (e_idx e) r r'); [eassumption|reflexivity]|].
    constructor; reflexivity. }
  assert (Hc1 : cfg k p1).
  { eapply cfg_same; try eassumption; [constructor; reflexivity|].
    intros i x Hx. eapply (zero_tail_set p (e_idx e) r); [apply (cfg_zero_tail _ _ Hc)|lia|eassumption|exact Hx]. }
  assert (Hopen1 : p_start p1 <= w_now w < p_end p1) by (cbn; lia).
  destruct (cfg_end_if _ _ _ _ _ Hc1 Hopen1 Hend) as [Hc2 Hst2].
  assert (Hst' : same_terms p p2) by (eapply same_terms_trans; eassumption).
  assert (Hsame2 : p_regs p2 = p_regs p1 /\ p_deposit p2 = p_deposit p1 /\ p_fee p2 = p_fee p1 /\
    p_claimed p2 = p_claimed p1 /\ p_refunded p2 = p_refunded p1 /\ p_escrows p2 = p_escrows p1 /\
    p_cwd p2 = p_cwd p1 /\ p_fee_col p2 = p_fee_col p1 /\ p_unsold_done p2 = p_unsold_done p1).
  { clear -Hend. apply end_if_inv in Hend as [->|(_ & _ & _ & _ & ->)]; cbn; auto 12. }
  destruct Hsame2 as (S1 & S2 & S3 & S4 & S5 & S6 & S7 & S8 & S9).
  (* tokens *)
  pose proof (i_tokens _ Hi) as Htok.
  pose proof (tk_fee _ Htok _ _ Hm) as Hmf.
  destruct (fee_included_exact m (amount + fee) gross ltac:(lia) Hmf Hgross) as (Hnet & Hg0 & _).
  assert (Hpa : payer <> PAuth) by (intros ->; discriminate).
  assert (Hqv' : qv = PQuoteVault k) by (rewrite <- Hqv; apply (c_qvault _ _ Hc)).
  destruct (q_qmint _ _ _ Hok) as (m' & Hm' & _ & Hsupm). rewrite Hqm in Hm'.
  assert (m' = m) as -> by congruence.
  pose proof (q_qvault _ _ _ Hok) as Hvh. rewrite Hqm in Hvh. rewrite Hqv' in Htr.
  assert (Hgr0 : 0 <= gross) by lia.
  pose proof (tok_transfer_in _ _ _ _ _ _ _ _ _ _ _ _ Htok Hgr0 Hpa Hm Hsupm Hvh Htr) as Hvin.
  pose proof (tok_transfer_kept _ _ _ _ _ _ _ _ _ _ Htok Hgr0 Hpa Htr) as [Hvk Hgk].
  pose proof (tok_transfer_ok _ _ _ _ _ _ _ _ _ _ Htok Hgr0 Htr) as Htok1.
  pose proof (tok_transfer_rest _ _ _ _ _ _ _ _ _ _ Htr) as Hrest.
  replace (qneed p + (gross - tok_fee m gross)) with (p_deposit p1 + p_fee p1) in Hvin
    by (cbn; lia).
  assert (H64 : p_deposit p1 + p_fee p1 <= U64MAX).
  { destruct Hvin as (t & Ht & _ & _ & _ & Hle). pose proof (tk_amount_u64 _ _ _ Htok1 Ht). lia. }
  destruct (unpaid_need p2) as [Hqn2 Hbn2]; [cbn in *; lia..|].
  destruct (upd_both w w1 k p2 ek (esc_deposited e amount fee) Hrest) as (U1 & U2 & U3 & U4 & U5 & U6 & U7 & U8 & U9).
  set (wf := upd_escrow ek (esc_deposited e amount fee) (upd_presale k p2 w1)) in *.
  destruct (kept_ext w1 wf U8 U9) as (K1 & K2 & K3).
  eapply (inv_one w wf k p p2); try eassumption.
  - rewrite U3. eapply others_update; [eassumption|assumption|exact Hk].
  - apply K3. assumption.
  - intros mk pr0 b v _ _ Hg Hv. apply K1. eapply Hvk; eassumption.
  - rewrite Hqm. apply K1. rewrite Hqn2, S2, S3. assumption.
  - apply K1. rewrite Hbn2, (t_supply_eq _ _ Hst'). rewrite <- Hbn.
    eapply Hvk; [apply (q_bmint _ _ _ Hok)|apply (q_bvault _ _ _ Hok)].
  - rewrite U3. eapply (acct_change (w_now w) k p (w_escrows w) Ha (w_now w) p2 ek e _ r r');
      try assumption; try reflexivity.
    + constructor.
      * rewrite (t_mode_eq _ _ Hst'), (t_max_eq _ _ Hst'), S2. cbn. intros Hm1. specialize (Q3 Hm1). lia.
      * rewrite (t_mode_eq _ _ Hst'), (t_nreg_eq _ _ Hst'), (t_raw0_eq _ _ Hst'), S1, Hreg1. intros Hm0.
        specialize (Q4 Hm0). destruct Q4 as [Q4 Q5].
        regcase i x Hx Hne; intros Hlt.
        -- cbn. destruct (c_price _ _ Hc Hm0) as (Hq0 & _). apply fixed_room; lia.
        -- apply (k_fixed _ Hkp Hm0 _ _ Hx Hlt).
    + cbn. lia.
    + cbn. lia.
    + rewrite S2. cbn. lia.
    + rewrite S3. cbn. lia.
    + rewrite S2, S3. assumption.
    + cbn. destruct (s_deposit _ _ _ _ _ Hs). lia.
    + cbn. pose proof (s_fee _ _ _ _ _ Hs). lia.
    + cbn. lia.
Qed.

Lemma pres_withdraw w k qv qm ek ot owner pr mx h w' l :
  inv w -> withdraw w k qv qm ek ot owner pr mx h = Ok (w', l) -> inv w'.
Proof.
  intros Hi Hx. apply withdraw_inv in Hx as
    (p & e & r & m & hh & amount & net & hooks & rest & w1 & fx &
     Hnow & Hmx & Hp & Hqv & Hqm & Hm & He & Hk & Ho & Hsg & Hop & Hhh & Hcan & Hsug & Hapos &
     Hr & Hed & Hrd & Hpd & Hval & _ & _ & Htr & _ & -> & _).
  pose proof (i_presales _ Hi _ _ Hp) as Hok. pose proof (q_cfg _ _ _ Hok) as Hc.
  pose proof (q_acct _ _ _ Hok) as Ha. pose proof (a_esc _ _ _ _ Ha _ _ He Hk) as Hs.
  pose proof (a_books _ _ _ _ Ha) as Hb. pose proof (a_caps _ _ _ _ Ha) as Hkp.
  destruct Hop as [Hst Hen]. pose proof (a_fresh _ _ _ _ Ha Hen) as Hfr.
  destruct (fresh_refunded _ _ _ Hb Hfr) as [Href Hcl].
  destruct (f_flags _ _ _ Hfr) as (Hf1 & Hf2 & Hf3).
  destruct (fresh_need _ _ _ Hb Hfr) as [Hqn Hbn].
  destruct (s_idx _ _ _ _ _ Hs) as [Hi0 Hi1].
  assert (Ham0 : 0 <= amount) by lia.
  set (p1 := withdrawn p e r amount) in *.
  set (r' := set_r_deposit (r_deposit r - amount) r).
  assert (Hreg1 : p_regs p1 = <[Z.to_nat (e_idx e) := r']> (p_regs p)) by reflexivity.
  assert (Hst1 : same_terms p p1).
  { eapply same_terms_trans; [eapply (set_reg_terms p (e_idx e) r r'); [eassumption|reflexivity]|].
    constructor; reflexivity. }
  assert (Hc1 : cfg k p1).
  { eapply cfg_same; try eassumption; [constructor; reflexivity|].
    intros i x Hx. eapply (zero_tail_set p (e_idx e) r); [apply (cfg_zero_tail _ _ Hc)|lia|eassumption|exact Hx]. }
  pose proof (transfer_pays _ _ _ _ _ _ _ _ _ (i_tokens _ Hi) Ham0 Htr) as Hpays.
  assert (Hqv' : qv = PQuoteVault k) by (rewrite <- Hqv; apply (c_qvault _ _ Hc)).
  destruct (unpaid_need p1) as [Hqn2 Hbn2]; [assumption..|].
  destruct (upd_both w w1 k p1 ek (set_e_deposit (e_deposit e - amount) e) (pay_rest _ _ _ _ Hpays))
    as (U1 & U2 & U3 & U4 & U5 & U6 & U7 & U8 & U9).
  eapply (inv_pay w w1 _ k p p1 qv amount); try eassumption.
  - rewrite U3. eapply others_update; [eassumption|assumption|exact Hk].
  - left. split; [assumption|]. rewrite Hqn, Hqn2, Hbn, Hbn2. cbn. lia.
  - rewrite U3. eapply (acct_change (w_now w) k p (w_escrows w) Ha (w_now w) p1 ek e _ r r');
      try assumption; try reflexivity; try (cbn; lia).
    + constructor.
      * cbn. intros Hm1. pose proof (k_cap _ Hkp Hm1). lia.
      * cbn [p1 withdrawn]. intros Hm0. change (p_mode p = 0) in Hm0. change (p_raw0 p1) with (p_raw0 p).
        change (p_nreg p1) with (p_nreg p). rewrite Hreg1.
        regcase i x Hx Hne; intros Hlt.
        -- cbn. pose proof (k_fixed _ Hkp Hm0 _ _ Hr Hlt). unfold scale in *. lia.
        -- apply (k_fixed _ Hkp Hm0 _ _ Hx Hlt).
    + cbn. pose proof (b_u64 _ _ _ Hb). lia.
    + cbn. destruct (s_deposit _ _ _ _ _ Hs). lia.
    + apply (s_fee _ _ _ _ _ Hs).
Qed.
