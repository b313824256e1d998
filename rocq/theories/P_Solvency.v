(** C01, C02: the vaults always hold what is owed out of them. *)
From Coq Require Import Lia.
From Verif Require Import Base Math State Handlers Token World Instr Exec Tactics Sums Spec Arith
  TokenFacts Inv Acct Funs Steps Init Preserve Reach Scenario.

(** * What is owed (specification) *)

(** [f] summed over the open escrows of presale [k]. *)
Definition escrow_sum (E : gmap addr escrow) (k : addr) (f : escrow -> Z) : Z :=
  msum (fun _ e => if bool_decide (e_presale e = k) then f e else 0) E.

(** Quote tokens owed by presale [k] at time [now]. *)
Definition owed_quote (now : Z) (k : addr) (p : presale) (E : gmap addr escrow) : Z :=
  if now <? p_end p then escrow_sum E k (fun e => e_deposit e + e_fee e)
  else if p_deposit p <? p_min_cap p then
    escrow_sum E k (fun e => if e_withdrawn e =? 1 then 0 else e_deposit e + e_fee e)
  else
    (if p_cwd p =? 1 then 0 else Z.min (p_deposit p) (p_max_cap p))
    + (if p_fee_col p =? 1 then 0 else fee_income p)
    + escrow_sum E k (fun e =>
        if e_withdrawn e =? 1 then 0
        else match p_regs p !! Z.to_nat (e_idx e) with
             | Some r => share_deposit p r (e_deposit e) + share_fee p r (e_fee e)
             | None => 0
             end).

(** Base tokens owed. *)
Definition owed_base (now : Z) (k : addr) (p : presale) (E : gmap addr escrow) : Z :=
  if now <? p_end p then p_supply p
  else if p_deposit p <? p_min_cap p then (if p_cwd p =? 1 then 0 else p_supply p)
  else
    (if p_unsold_done p =? 1 then 0 else unsold p)
    + escrow_sum E k (fun e =>
        match p_regs p !! Z.to_nat (e_idx e) with
        | Some r => final p r (e_deposit e) - e_claimed e
        | None => 0
        end).

(** * Sums by registry *)

Lemma lsum_index_le {A} (f : A -> Z) (l : list A) (h : nat -> Z) :
  (forall i r, l !! i = Some r -> h i <= f r) -> lsum h (seq 0 (length l)) <= lsum f l.
Proof.
  revert h. induction l as [|a l IH]; intros h Hh; [reflexivity|].
  cbn [length seq lsum]. rewrite <- fmap_S_seq.
  assert (Heq : lsum h (S <$> seq 0 (length l)) = lsum (fun i => h (S i)) (seq 0 (length l))).
  { generalize (seq 0 (length l)). intros m. induction m as [|x m IHm]; [reflexivity|].
    cbn. rewrite IHm. reflexivity. }
  pose proof (Hh 0%nat a eq_refl). specialize (IH (fun i => h (S i)) (fun i r => Hh (S i) r)).
  cbn in *. lia.
Qed.

Lemma lsum_index_ge {A} (f : A -> Z) (l : list A) (h : nat -> Z) :
  (forall i r, l !! i = Some r -> f r <= h i) -> lsum f l <= lsum h (seq 0 (length l)).
Proof.
  revert h. induction l as [|a l IH]; intros h Hh; [reflexivity|].
  cbn [length seq lsum]. rewrite <- fmap_S_seq.
  assert (Heq : lsum h (S <$> seq 0 (length l)) = lsum (fun i => h (S i)) (seq 0 (length l))).
  { generalize (seq 0 (length l)). intros m. induction m as [|x m IHm]; [reflexivity|].
    cbn. rewrite IHm. reflexivity. }
  pose proof (Hh 0%nat a eq_refl). specialize (IH (fun i => h (S i)) (fun i r => Hh (S i) r)).
  cbn in *. lia.
Qed.

Lemma seq_sum_indicator (n : nat) (j : nat) (x : Z) :
  (j < n)%nat -> lsum (fun i => if bool_decide (Z.of_nat j = Z.of_nat i) then x else 0) (seq 0 n) = x.
Proof.
  intros Hj.
  assert (H : forall m s, lsum (fun i => if bool_decide (Z.of_nat j = Z.of_nat i) then x else 0) (seq s m)
     = if decide (s <= j < s + m)%nat then x else 0).
  { induction m as [|m IHm]; intros s.
    - cbn. rewrite decide_False by lia. reflexivity.
    - cbn. rewrite IHm. destruct (decide (s = j)) as [->|Hne].
      + rewrite bool_decide_eq_true_2 by reflexivity. rewrite decide_False by lia.
        rewrite decide_True by lia. lia.
      + rewrite bool_decide_eq_false_2 by lia.
        destruct (decide (S s <= j < S s + m)%nat).
        * rewrite decide_True by lia. lia.
        * rewrite decide_False by lia. lia. }
  rewrite H. rewrite decide_True by lia. reflexivity.
Qed.

Lemma escrow_sum_regs k f E n :
  (forall ek e, E !! ek = Some e -> e_presale e = k -> 0 <= e_idx e < Z.of_nat n) ->
  escrow_sum E k f = lsum (fun i => esum k i f E) (seq 0 n).
Proof.
  intros Hidx. unfold escrow_sum, esum.
  assert (Hx : forall (l : list nat) (g : nat -> addr -> escrow -> Z),
    lsum (fun i => msum (g i) E) l = msum (fun a e => lsum (fun i => g i a e) l) E).
  { induction l as [|i l IHl]; intros g; cbn.
    - symmetry. apply msum_zero.
    - rewrite IHl. rewrite <- msum_add. reflexivity. }
  rewrite Hx. apply msum_ext. intros ek e He. unfold in_reg.
  destruct (bool_decide (e_presale e = k)) eqn:Hb.
  - apply bool_decide_eq_true_1 in Hb. pose proof (Hidx _ _ He Hb) as Hr.
    symmetry. etransitivity; [|apply (seq_sum_indicator n (Z.to_nat (e_idx e)) (f e)); lia].
    apply lsum_ext. intros i _. rewrite Z2Nat.id by lia.
    destruct (decide (e_idx e = Z.of_nat i)).
    + rewrite !bool_decide_eq_true_2 by auto. reflexivity.
    + rewrite !bool_decide_eq_false_2 by tauto. reflexivity.
  - apply bool_decide_eq_false_1 in Hb. symmetry. etransitivity; [|apply (lsum_zero (seq 0 n))].
    apply lsum_ext. intros i _. rewrite bool_decide_eq_false_2 by tauto. reflexivity.
Qed.

(** * Rounding down many shares never exceeds rounding down their sum *)
Lemma esum_floor k i a t (g : escrow -> Z) E :
  0 <= t -> esum k i (fun e => g e * a / t) E <= esum k i g E * a / t.
Proof.
  intros Ht. unfold esum. induction E as [|ek e E Hn IH] using map_ind.
  - rewrite !msum_empty. destruct (Z.eq_dec t 0) as [->|]; [rewrite Zdiv_0_r|rewrite Z.div_0_l]; lia.
  - rewrite !msum_insert_new by assumption. etransitivity; [|apply fl_super_l; assumption].
    apply Z.add_le_mono; [|assumption]. unfold in_reg. destruct (bool_decide _); [lia|].
    rewrite Z.mul_0_l. destruct (Z.eq_dec t 0) as [->|]; [rewrite Zdiv_0_r|rewrite Z.div_0_l]; lia.
Qed.

Lemma lsum_floor {A} a t (g : A -> Z) l :
  0 <= t -> lsum (fun x => a * g x / t) l <= a * lsum g l / t.
Proof.
  intros Ht. induction l as [|x l IH].
  - cbn. rewrite Z.mul_0_r. destruct (Z.eq_dec t 0) as [->|]; [rewrite Zdiv_0_r|rewrite Z.div_0_l]; lia.
  - cbn [lsum]. etransitivity; [|apply fl_super; assumption]. lia.
Qed.

(** Linear arithmetic with sums and quotients as atoms. *)
Ltac atoms :=
  repeat match goal with H : _ <= _ |- _ => revert H | H : _ = _ |- _ => revert H end;
  repeat match goal with |- context [esum ?a ?b ?c ?d] => generalize (esum a b c d); intro end;
  repeat match goal with |- context [?a / ?b] => generalize (a / b); intro end;
  intros; lia.

(** * C01, C02 *)
Section Owed.
Context (now : Z) (k : addr) (p : presale) (E : gmap addr escrow).
Hypothesis (Hc : cfg k p) (Ha : acct now k p E).

Let Hb : books k p E := a_books _ _ _ _ Ha.
Let Hk : caps p := a_caps _ _ _ _ Ha.

Lemma idx_bound ek e : E !! ek = Some e -> e_presale e = k -> 0 <= e_idx e < Z.of_nat (length (p_regs p)).
Proof.
  intros He Hp. pose proof (s_idx _ _ _ _ _ (a_esc _ _ _ _ Ha _ _ He Hp)).
  pose proof (c_nreg _ _ Hc). rewrite (c_len _ _ Hc). lia.
Qed.

Lemma escrow_sum_le (f : escrow -> Z) (g : registry -> Z) :
  (forall i r, p_regs p !! i = Some r -> esum k i f E <= g r) -> escrow_sum E k f <= lsum g (p_regs p).
Proof.
  intros Hi. rewrite (escrow_sum_regs k f E (length (p_regs p))) by (apply idx_bound).
  apply lsum_index_le. assumption.
Qed.

Lemma excess_split : p_deposit p = Z.min (p_deposit p) (p_max_cap p) + excess p.
Proof. unfold excess. lia. Qed.

Lemma fee_split : p_fee p = fee_income p + lsum (reg_fee_excess p) (p_regs p).
Proof. unfold fee_income. rewrite lsum_sub, (b_fee _ _ _ Hb). lia. Qed.

Lemma reg_excess_total : lsum (reg_excess p) (p_regs p) <= excess p.
Proof.
  pose proof (books_totals _ _ _ Hb). pose proof (c_caps _ _ Hc).
  unfold reg_excess. etransitivity; [apply lsum_floor; lia|].
  rewrite <- (b_deposit _ _ _ Hb). apply fl_le_self; [unfold excess; lia|lia].
Qed.

(** Everything refundable to the open escrows of one registry. *)
Definition unrefunded (r : registry) (e : escrow) : Z :=
  if e_withdrawn e =? 1 then 0 else share_deposit p r (e_deposit e) + share_fee p r (e_fee e).

Lemma registry_refunds i r :
  p_min_cap p <= p_deposit p -> p_regs p !! i = Some r ->
  r_refunded r + esum k i (unrefunded r) E <= reg_excess p r + reg_fee_excess p r.
Proof.
  intros Hs Hr. pose proof (ps_refund _ _ _ _ _ (a_success _ _ _ _ Ha Hs _ _ Hr)) as Hle.
  pose proof (books_reg_le _ _ _ _ _ Hb Hr) as (Hd & Hf & _).
  pose proof (c_caps _ _ Hc) as Hcap.
  pose proof (reg_excess_range p r ltac:(lia) ltac:(lia)) as Hx.
  pose proof (reg_fee_excess_range p r ltac:(lia) ltac:(lia) ltac:(lia)) as Hfx.
  assert (Hsum : esum k i (refunded_share p r) E + esum k i (unrefunded r) E =
    esum k i (fun e => e_deposit e * reg_excess p r / r_deposit r) E +
    esum k i (fun e => e_fee e * reg_fee_excess p r / r_fee r) E).
  { rewrite <- !esum_add. apply esum_ext. intros ek e _ _ _. unfold refunded_share, unrefunded.
    unfold share_deposit, share_fee. destruct (e_withdrawn e =? 1); lia. }
  pose proof (esum_floor k i (reg_excess p r) (r_deposit r) e_deposit E ltac:(lia)) as H1.
  pose proof (esum_floor k i (reg_fee_excess p r) (r_fee r) e_fee E ltac:(lia)) as H2.
  pose proof (fl_super_l (reg_excess p r) (esum k i e_deposit E) (closed_deposit k i r E) (r_deposit r)
    ltac:(lia)) as H3.
  pose proof (fl_super_l (reg_fee_excess p r) (esum k i e_fee E) (closed_fee k i r E) (r_fee r)
    ltac:(lia)) as H4.
  replace (esum k i e_deposit E + closed_deposit k i r E) with (r_deposit r) in H3
    by (unfold closed_deposit; lia).
  replace (esum k i e_fee E + closed_fee k i r E) with (r_fee r) in H4 by (unfold closed_fee; lia).
  assert (H5 : r_deposit r * reg_excess p r / r_deposit r <= reg_excess p r)
    by (rewrite Z.mul_comm; apply fl_le_self; lia).
  assert (H6 : r_fee r * reg_fee_excess p r / r_fee r <= reg_fee_excess p r)
    by (rewrite Z.mul_comm; apply fl_le_self; lia).
  clear - Hle Hsum H1 H2 H3 H4 H5 H6. atoms.
Qed.

Lemma owed_quote_need : owed_quote now k p E <= qneed p.
Proof.
  unfold owed_quote, qneed. destruct (Z.ltb_spec now (p_end p)) as [Hn|Hn].
  - destruct (a_fresh _ _ _ _ Ha Hn) as [(-> & -> & _) Hr _].
    assert (Hz : p_refunded p = 0).
    { rewrite (b_refunded _ _ _ Hb). etransitivity; [|apply (lsum_zero (p_regs p))].
      apply lsum_ext. intros r Hi. apply elem_of_list_lookup in Hi as [i Hi]. apply (Hr i r Hi). }
    rewrite Hz, (b_deposit _ _ _ Hb), (b_fee _ _ _ Hb). cbn [Z.eqb andb].
    rewrite !Z.sub_0_r, <- lsum_add. apply escrow_sum_le. intros i r Hi. rewrite esum_add.
    destruct (Hr i r Hi) as (-> & -> & _). lia.
  - destruct (Z.ltb_spec (p_deposit p) (p_min_cap p)) as [Hf|Hs].
    + destruct (a_failed _ _ _ _ Ha Hf) as [[Hcol _] Hr _]. rewrite Hcol.
      rewrite (proj2 (Z.leb_gt _ _)) by lia. rewrite andb_false_r. cbn [Z.eqb].
      rewrite (b_refunded _ _ _ Hb), (b_deposit _ _ _ Hb), (b_fee _ _ _ Hb).
      rewrite <- lsum_add, <- lsum_sub, !Z.sub_0_r. apply escrow_sum_le. intros i r Hi.
      destruct (Hr i r Hi) as (_ & ->). unfold closed_deposit, closed_fee.
      assert (Hsum : esum k i (fun e => if e_withdrawn e =? 1 then 0 else e_deposit e + e_fee e) E
        + esum k i refunded_full E = esum k i e_deposit E + esum k i e_fee E).
      { rewrite <- !esum_add. apply esum_ext. intros ek e _ _ _. unfold refunded_full.
        destruct (e_withdrawn e =? 1); lia. }
      lia.
    + rewrite (proj2 (Z.leb_le _ _)) by lia. rewrite andb_true_r.
      assert (Hsh : escrow_sum E k (fun e =>
        if e_withdrawn e =? 1 then 0
        else match p_regs p !! Z.to_nat (e_idx e) with
             | Some r => share_deposit p r (e_deposit e) + share_fee p r (e_fee e)
             | None => 0
             end) <= lsum (fun r => reg_excess p r + reg_fee_excess p r - r_refunded r) (p_regs p)).
      { apply escrow_sum_le. intros i r Hr. pose proof (registry_refunds i r Hs Hr) as Hle.
        rewrite (esum_ext _ _ _ (unrefunded r)); [lia|]. intros ek e He Hp Hi.
        rewrite Hi, Nat2Z.id, Hr. reflexivity. }
      rewrite lsum_sub, lsum_add in Hsh. rewrite <- (b_refunded _ _ _ Hb) in Hsh.
      pose proof reg_excess_total. pose proof excess_split. pose proof fee_split.
      destruct (p_cwd p =? 1); destruct (p_fee_col p =? 1); lia.
Qed.

Lemma registry_claims i r :
  p_min_cap p <= p_deposit p -> p_regs p !! i = Some r ->
  r_claimed r + esum k i (fun e => final p r (e_deposit e) - e_claimed e) E <= sold p r.
Proof.
  intros Hs Hr. pose proof (ps_claim _ _ _ _ _ (a_success _ _ _ _ Ha Hs _ _ Hr)) as Hle.
  pose proof (b_nonneg _ _ _ Hb _ _ Hr) as (Hd & _).
  pose proof (parts_range _ _ _ _ Hc Hr Hd) as (Hi1 & Hv1 & Hsum1).
  assert (Hsum : esum k i (fun e => final p r (e_deposit e) - e_claimed e) E + esum k i e_claimed E =
    esum k i (fun e => e_deposit e * imm_part p r / r_deposit r) E +
    esum k i (fun e => e_deposit e * vest_part p r / r_deposit r) E).
  { rewrite <- !esum_add. apply esum_ext. intros ek e _ _ _. unfold final.
    rewrite !(Z.mul_comm (e_deposit e)). lia. }
  pose proof (esum_floor k i (imm_part p r) (r_deposit r) e_deposit E ltac:(lia)) as H1.
  pose proof (esum_floor k i (vest_part p r) (r_deposit r) e_deposit E ltac:(lia)) as H2.
  pose proof (fl_super_l (imm_part p r) (esum k i e_deposit E) (closed_deposit k i r E) (r_deposit r)
    ltac:(lia)) as H3.
  pose proof (fl_super_l (vest_part p r) (esum k i e_deposit E) (closed_deposit k i r E) (r_deposit r)
    ltac:(lia)) as H4.
  replace (esum k i e_deposit E + closed_deposit k i r E) with (r_deposit r) in H3, H4
    by (unfold closed_deposit; lia).
  assert (H5 : r_deposit r * imm_part p r / r_deposit r <= imm_part p r)
    by (rewrite Z.mul_comm; apply fl_le_self; lia).
  assert (H6 : r_deposit r * vest_part p r / r_deposit r <= vest_part p r)
    by (rewrite Z.mul_comm; apply fl_le_self; lia).
  rewrite !(Z.mul_comm (closed_deposit k i r E)) in *.
  clear - Hle Hsum H1 H2 H3 H4 H5 H6 Hsum1. atoms.
Qed.

Lemma owed_base_need : owed_base now k p E <= bneed p.
Proof.
  unfold owed_base, bneed. destruct (Z.ltb_spec now (p_end p)) as [Hn|Hn].
  - destruct (a_fresh _ _ _ _ Ha Hn) as [(-> & _ & ->) Hr _].
    assert (Hz : p_claimed p = 0).
    { rewrite (b_claimed _ _ _ Hb). etransitivity; [|apply (lsum_zero (p_regs p))].
      apply lsum_ext. intros r Hi. apply elem_of_list_lookup in Hi as [i Hi]. apply (Hr i r Hi). }
    rewrite Hz. cbn [Z.eqb andb]. lia.
  - destruct (Z.ltb_spec (p_deposit p) (p_min_cap p)) as [Hf|Hs].
    + destruct (a_failed _ _ _ _ Ha Hf) as [[_ Hdone] Hr _]. rewrite Hdone, andb_true_r. cbn [Z.eqb].
      assert (Hz : p_claimed p = 0).
      { rewrite (b_claimed _ _ _ Hb). etransitivity; [|apply (lsum_zero (p_regs p))].
        apply lsum_ext. intros r Hi. apply elem_of_list_lookup in Hi as [i Hi]. apply (Hr i r Hi). }
      rewrite Hz. destruct (p_cwd p =? 1); lia.
    + rewrite andb_false_r.
      assert (Hsh : escrow_sum E k (fun e =>
        match p_regs p !! Z.to_nat (e_idx e) with
        | Some r => final p r (e_deposit e) - e_claimed e
        | None => 0
        end) <= lsum (fun r => sold p r - r_claimed r) (p_regs p)).
      { apply escrow_sum_le. intros i r Hr. pose proof (registry_claims i r Hs Hr) as Hle.
        rewrite (esum_ext _ _ _ (fun e => final p r (e_deposit e) - e_claimed e)); [lia|].
        intros ek e He Hp Hi. rewrite Hi, Nat2Z.id, Hr. reflexivity. }
      rewrite lsum_sub in Hsh. rewrite <- (b_claimed _ _ _ Hb) in Hsh.
      unfold unsold, total_sold. destruct (p_unsold_done p =? 1); lia.
Qed.
End Owed.

Section WithCrypto.
Context `{Crypto}.

Theorem C01_quote_vault_solvent w k p :
  reachable w -> w_presales w !! k = Some p ->
  exists v, w_tokens w !! p_qvault p = Some v /\ t_mint v = p_qmint p /\ t_owner v = PAuth /\
    owed_quote (w_now w) k p (w_escrows w) <= t_amount v.
Proof.
  intros Hw Hp. destruct (i_presales _ (reachable_inv _ Hw) _ _ Hp) as [Hc _ _ Hq _ Ha].
  destruct Hq as (v & Hv & Hm & Ho & _ & Hn). exists v.
  rewrite (c_qvault _ _ Hc). repeat (split; [assumption|]).
  pose proof (owed_quote_need _ _ _ _ Hc Ha). lia.
Qed.

Theorem C02_base_vault_solvent w k p :
  reachable w -> w_presales w !! k = Some p ->
  exists v, w_tokens w !! p_bvault p = Some v /\ t_mint v = p_bmint p /\ t_owner v = PAuth /\
    owed_base (w_now w) k p (w_escrows w) <= t_amount v.
Proof.
  intros Hw Hp. destruct (i_presales _ (reachable_inv _ Hw) _ _ Hp) as [Hc _ _ _ Hq Ha].
  destruct Hq as (v & Hv & Hm & Ho & _ & Hn). exists v.
  rewrite (c_bvault _ _ Hc). repeat (split; [assumption|]).
  pose proof (owed_base_need _ _ _ _ Hc Ha). lia.
Qed.
End WithCrypto.

(** Non-vacuity: in the prorata scenario, after some refunds and claims, 288 quote tokens are in
    the vault and 285 are still owed; before the end everything deposited is owed. *)
#[local] Existing Instance toy.
Example C01_example_over :
  exists p, w_presales w_pr_paid !! k1 = Some p /\
    owed_quote (w_now w_pr_paid) k1 p (w_escrows w_pr_paid) = 285.
Proof. eexists. split. { vm_compute. reflexivity. } vm_compute. reflexivity. Qed.
Example C01_example_open :
  exists p, w_presales w_pr_open !! k1 = Some p /\
    owed_quote (w_now w_pr_open) k1 p (w_escrows w_pr_open) = 1567.
Proof. eexists. split. { vm_compute. reflexivity. } vm_compute. reflexivity. Qed.
Example C01_example_failed :
  exists p, w_presales w_ff_paid !! k1 = Some p /\
    owed_quote (w_now w_ff_paid) k1 p (w_escrows w_ff_paid) = 103.
Proof. eexists. split. { vm_compute. reflexivity. } vm_compute. reflexivity. Qed.
Example C02_example_over :
  exists p, w_presales w_pr_paid !! k1 = Some p /\
    owed_base (w_now w_pr_paid) k1 p (w_escrows w_pr_paid) = 1700.
Proof. eexists. split. { vm_compute. reflexivity. } vm_compute. reflexivity. Qed.
