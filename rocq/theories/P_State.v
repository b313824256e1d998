(** Properties of every reachable state: C09 hard cap, C10 personal limits, C31 books,
    C41 sold plus unsold, C48 escrow identity. *)
From Coq Require Import Lia.
From Verif Require Import Base Math State Handlers Token World Instr Exec Tactics Sums Spec Arith
  TokenFacts Inv Acct Funs Steps Init Preserve Reach Scenario P_Solvency.

(** The number of open escrows of presale [k] satisfying [P]. *)
Definition count_escrows (E : gmap addr escrow) (k : addr) (P : escrow -> bool) : Z :=
  Z.of_nat (size (filter (fun x => e_presale x.2 = k /\ P x.2 = true) E)).

Lemma count_sum E k P :
  count_escrows E k P = msum (fun _ e => if bool_decide (e_presale e = k) && P e then 1 else 0) E.
Proof.
  unfold count_escrows. induction E as [|ek e E Hn IH] using map_ind.
  - rewrite map_filter_empty, map_size_empty, msum_empty. reflexivity.
  - rewrite msum_insert_new by assumption. destruct (decide (e_presale e = k /\ P e = true)) as [[H1 H2]|Hf].
    + rewrite map_filter_insert_True by (cbn; auto). rewrite map_size_insert_None.
      * rewrite Nat2Z.inj_succ, IH. rewrite bool_decide_eq_true_2 by assumption. rewrite H2. cbn [andb]. lia.
      * apply map_filter_lookup_None. auto.
    + rewrite map_filter_insert_False by (cbn; exact Hf). rewrite delete_notin by assumption. rewrite IH.
      destruct (bool_decide (e_presale e = k)) eqn:Hb; [|cbn [andb]; lia].
      apply bool_decide_eq_true_1 in Hb. destruct (P e) eqn:HP; [tauto|]. cbn [andb]. lia.
Qed.

Section WithCrypto.
Context `{Crypto}.

(** FCFS and fixed price never take more than the maximum cap; a fixed-price registry takes less
    than one quote unit more than the price of one token more than its supply. *)
Theorem C09_hard_cap w k p :
  reachable w -> w_presales w !! k = Some p ->
  (p_mode p = 0 \/ p_mode p = 2 -> p_deposit p <= p_max_cap p) /\
  (p_mode p = 0 -> forall i r, p_regs p !! i = Some r ->
     (r_deposit r - 1) * scale < (r_supply r + 1) * p_raw0 p).
Proof.
  intros Hw Hp. destruct (i_presales _ (reachable_inv _ Hw) _ _ Hp) as [Hc _ _ _ _ Ha].
  pose proof (a_caps _ _ _ _ Ha) as Hk. split.
  - intros Hm. apply (k_cap _ Hk). lia.
  - intros Hm i r Hr. destruct (c_regs _ _ Hc _ _ Hr) as [(Hi & _)|(_ & ->)].
    + pose proof (k_fixed _ Hk Hm _ _ Hr Hi). lia.
    + cbn. pose proof (c_price _ _ Hc Hm) as [Hq _]. unfold scale. lia.
Qed.

Theorem C10_personal_limits w k p ek e r :
  reachable w -> w_presales w !! k = Some p -> w_escrows w !! ek = Some e -> e_presale e = k ->
  p_regs p !! Z.to_nat (e_idx e) = Some r ->
  e_deposit e = 0 \/ r_min_cap r <= e_deposit e <= Z.min (r_max_cap r) (e_cap e).
Proof.
  intros Hw Hp He Hk Hr. destruct (at_intro _ _ _ _ _ _ (reachable_inv _ Hw) Hp He Hk Hr).
  pose proof (s_reg _ _ _ _ _ at_esc _ Hr) as (H1 & H2 & _). pose proof (s_deposit _ _ _ _ _ at_esc). lia.
Qed.

Theorem C31_books_balance w k p :
  reachable w -> w_presales w !! k = Some p ->
  p_deposit p = lsum r_deposit (p_regs p) /\ p_fee p = lsum r_fee (p_regs p) /\
  p_claimed p = lsum r_claimed (p_regs p) /\ p_refunded p = lsum r_refunded (p_regs p) /\
  p_escrows p = lsum r_escrows (p_regs p) /\
  p_escrows p = count_escrows (w_escrows w) k (fun _ => true) /\
  (forall i r, p_regs p !! i = Some r ->
     r_escrows r = count_escrows (w_escrows w) k (fun e => e_idx e =? Z.of_nat i)) /\
  (w_now w < p_end p -> forall i r, p_regs p !! i = Some r ->
     r_deposit r = escrow_sum (w_escrows w) k (fun e => if e_idx e =? Z.of_nat i then e_deposit e else 0) /\
     r_fee r = escrow_sum (w_escrows w) k (fun e => if e_idx e =? Z.of_nat i then e_fee e else 0)) /\
  (w_now w < p_end p ->
     p_deposit p = escrow_sum (w_escrows w) k e_deposit /\ p_fee p = escrow_sum (w_escrows w) k e_fee).
Proof.
  intros Hw Hp. destruct (i_presales _ (reachable_inv _ Hw) _ _ Hp) as [Hc _ _ _ _ Ha].
  pose proof (a_books _ _ _ _ Ha) as Hb.
  assert (Hes : forall i f, escrow_sum (w_escrows w) k (fun e => if e_idx e =? Z.of_nat i then f e else 0)
    = esum k i f (w_escrows w)).
  { intros i f. unfold escrow_sum, esum. apply msum_ext. intros ek e _. unfold in_reg.
    destruct (bool_decide (e_presale e = k)) eqn:Hb1.
    - apply bool_decide_eq_true_1 in Hb1. destruct (Z.eqb_spec (e_idx e) (Z.of_nat i)).
      + rewrite bool_decide_eq_true_2 by auto. reflexivity.
      + rewrite bool_decide_eq_false_2 by tauto. reflexivity.
    - apply bool_decide_eq_false_1 in Hb1. rewrite bool_decide_eq_false_2 by tauto. reflexivity. }
  assert (Htot : forall f (g : registry -> Z), (forall i r, p_regs p !! i = Some r -> g r = esum k i f (w_escrows w)) ->
    lsum g (p_regs p) = escrow_sum (w_escrows w) k f).
  { intros f g Hg. rewrite (escrow_sum_regs k f (w_escrows w) (length (p_regs p)))
      by (apply (idx_bound _ _ _ _ Hc Ha)).
    apply Z.le_antisymm; [apply lsum_index_ge|apply lsum_index_le]; intros i r Hr; rewrite (Hg _ _ Hr); lia. }
  repeat (split; [first [apply (b_deposit _ _ _ Hb)|apply (b_fee _ _ _ Hb)|apply (b_claimed _ _ _ Hb)
    |apply (b_refunded _ _ _ Hb)|apply (b_escrows _ _ _ Hb)]|]).
  split; [|split; [|split]].
  - rewrite (b_escrows _ _ _ Hb), (Htot one).
    + rewrite count_sum. unfold escrow_sum, one. apply msum_ext. intros. rewrite andb_true_r. reflexivity.
    + intros i r Hr. apply (b_count _ _ _ Hb _ _ Hr).
  - intros i r Hr. rewrite (b_count _ _ _ Hb _ _ Hr), <- Hes, count_sum. unfold escrow_sum, one.
    apply msum_ext. intros. destruct (bool_decide _); reflexivity.
  - intros Hn i r Hr. rewrite !Hes. destruct (f_reg _ _ _ (a_fresh _ _ _ _ Ha Hn) _ _ Hr) as (-> & -> & _). auto.
  - intros Hn. rewrite (b_deposit _ _ _ Hb), (b_fee _ _ _ Hb).
    split; apply Htot; intros i r Hr; apply (f_reg _ _ _ (a_fresh _ _ _ _ Ha Hn) _ _ Hr).
Qed.

(** What the program computes as sold and unsold. *)
Theorem C41_sold_plus_unsold w k p :
  reachable w -> w_presales w !! k = Some p ->
  exists h s u, get_handler p = Ok h /\ handler_total_sold h p = Ok s /\ total_unsold_token p h = Ok u /\
    0 <= s /\ 0 <= u /\ s + u = p_supply p /\
    s = lsum (fun r => if r_deposit r =? 0 then 0
                       else if p_mode p =? 0
                            then Z.min (r_deposit r * 2 ^ 64 / p_raw0 p) (r_supply r)
                            else r_supply r) (p_regs p) /\
    p_supply p = lsum r_supply (p_regs p).
Proof.
  intros Hw Hp. destruct (i_presales _ (reachable_inv _ Hw) _ _ Hp) as [Hc _ _ _ _ Ha].
  pose proof (a_books _ _ _ _ Ha) as Hb. pose proof (a_caps _ _ _ _ Ha) as Hk.
  destruct (handler_total _ _ Hc) as [h Hh].
  exists h, (total_sold p), (unsold p). pose proof (total_sold_range _ _ _ Hc Hb).
  split; [assumption|]. split; [eapply total_sold_spec; eassumption|].
  split; [eapply unsold_spec; eassumption|].
  unfold unsold. repeat (split; [lia|]). split; [reflexivity|]. apply (c_supply _ _ Hc).
Qed.

Theorem C48_one_escrow_per_buyer w ek e :
  reachable w -> w_escrows w !! ek = Some e ->
  ek = PEscrow (e_presale e) (e_owner e) (e_idx e) /\
  (exists p, w_presales w !! e_presale e = Some p /\ 0 <= e_idx e < p_nreg p /\ p_nreg p <= 5) /\
  (forall ek' e', w_escrows w !! ek' = Some e' -> e_presale e' = e_presale e ->
     e_owner e' = e_owner e -> e_idx e' = e_idx e -> ek' = ek /\ e' = e).
Proof.
  intros Hw He. pose proof (reachable_inv _ Hw) as Hi.
  assert (Hkey : forall ek e, w_escrows w !! ek = Some e ->
    exists p, w_presales w !! e_presale e = Some p /\ esc_ok (w_now w) (e_presale e) p ek e /\ p_nreg p <= 5).
  { intros ek0 e0 He0. destruct (i_escrows _ Hi _ _ He0) as [p Hp]. exists p. split; [assumption|].
    destruct (i_presales _ Hi _ _ Hp) as [Hc _ _ _ _ Ha]. pose proof (c_nreg _ _ Hc).
    split; [apply (a_esc _ _ _ _ Ha _ _ He0 eq_refl)|lia]. }
  destruct (Hkey _ _ He) as (p & Hp & Ho & Hn). split; [apply (s_key _ _ _ _ _ Ho)|]. split.
  - exists p. pose proof (s_idx _ _ _ _ _ Ho). auto with lia.
  - intros ek' e' He' H1 H2 H3. destruct (Hkey _ _ He') as (p' & Hp' & Ho' & _).
    pose proof (s_key _ _ _ _ _ Ho) as K. pose proof (s_key _ _ _ _ _ Ho') as K'.
    rewrite H1, H2, H3, <- K in K'. subst ek'. split; [reflexivity|]. congruence.
Qed.
End WithCrypto.

(** Non-vacuity. *)
#[local] Existing Instance toy.
Example C09_example : exists p, w_presales w_fx_open !! k1 = Some p /\ p_mode p = 0 /\ p_deposit p = 998 /\ p_max_cap p = 2000.
Proof. eexists. split. { vm_compute. reflexivity. } vm_compute. auto. Qed.
Example C31_example : exists p, w_presales w_pr_open !! k1 = Some p /\ w_now w_pr_open < p_end p /\
  p_deposit p = 1551 /\ p_fee p = 16 /\ p_escrows p = 3.
Proof. eexists. split. { vm_compute. reflexivity. } vm_compute. auto. Qed.
Example C41_example : exists p, w_presales w_fx_over !! k1 = Some p /\ p_min_cap p <= p_deposit p /\ unsold p = 601.
Proof. eexists. split. { vm_compute. reflexivity. } vm_compute. split; [discriminate|reflexivity]. Qed.
Example C48_example : exists e, w_escrows w_pr_open !! PEscrow k1 carol 1 = Some e /\ e_deposit e = 201.
Proof. eexists. split. { vm_compute. reflexivity. } vm_compute. reflexivity. Qed.
