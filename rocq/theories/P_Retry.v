(** C92: sending an accepted call a second time. *)
From Coq Require Import Lia.
From Verif Require Import Base Math State Handlers Token World Instr Exec Tactics Sums Spec Arith
  TokenFacts Inv Acct Funs Steps Init Preserve Reach Did Trans Flow Scenario P_Exit.

(** The instructions that are meant to be repeatable: each accepted one moves its amount. *)
Definition moves_again (o : op) : bool :=
  match o with IDeposit _ _ _ _ _ _ _ _ _ | IWithdraw _ _ _ _ _ _ _ _ _ => true | _ => false end.
(** The instructions that are accepted a second time, without effect. *)
Definition harmless (o : op) : bool :=
  match o with IClaim _ _ _ _ _ _ _ _ | IRefresh _ _ => true | _ => false end.
(** No token moved. *)
Definition only_events (l : list fx) : Prop := forall x, x ∈ l -> exists ev, x = FxEvent ev.

Section WithCrypto.
Context `{Crypto}.

Lemma put_back k ek p e w :
  w_presales w !! k = Some p -> w_escrows w !! ek = Some e -> upd_escrow ek e (upd_presale k p w) = w.
Proof.
  intros Hp He. unfold upd_escrow, upd_presale, put_escrows, put_presales. cbn.
  rewrite !insert_id by assumption. destruct w; reflexivity.
Qed.
Lemma put_back_escrow ek e w : w_escrows w !! ek = Some e -> upd_escrow ek e w = w.
Proof. intros He. unfold upd_escrow, put_escrows. rewrite insert_id by assumption. destruct w; reflexivity. Qed.

Lemma aux_again w o w' l w2 l2 :
  aux_op o = true -> step w o = Ok (w', l) -> step w' o = Ok (w2, l2) -> False.
Proof.
  intros Ha H1 H2. destruct o; try discriminate Ha; cbn in H1, H2.
  - apply init_fixed_inv in H1 as (_ & _ & _ & _ & -> & _). apply init_fixed_inv in H2 as (_ & Hn & _).
    cbn in Hn. rewrite lookup_insert in Hn. discriminate.
  - apply close_fixed_inv in H1 as (x & _ & _ & _ & -> & _). apply close_fixed_inv in H2 as (y & Hn & _).
    cbn in Hn. rewrite lookup_delete in Hn. discriminate.
  - apply create_merkle_inv in H1 as (p & _ & _ & _ & _ & _ & _ & _ & _ & -> & _).
    apply create_merkle_inv in H2 as (p' & _ & _ & _ & Hn & _). cbn in Hn. rewrite lookup_insert in Hn. discriminate.
  - apply close_merkle_inv in H1 as (p & c & _ & _ & _ & _ & _ & _ & _ & -> & _).
    apply close_merkle_inv in H2 as (p' & c' & _ & Hn & _). cbn in Hn. rewrite lookup_delete in Hn. discriminate.
  - apply create_operator_inv in H1 as (_ & _ & -> & _). apply create_operator_inv in H2 as (_ & Hn & _).
    cbn in Hn. rewrite lookup_insert in Hn. discriminate.
  - apply revoke_operator_inv in H1 as (o & _ & _ & _ & -> & _). apply revoke_operator_inv in H2 as (o' & Hn & _).
    cbn in Hn. rewrite lookup_delete in Hn. discriminate.
  - apply create_server_inv in H1 as (p & _ & _ & _ & _ & _ & _ & -> & _).
    apply create_server_inv in H2 as (p' & _ & _ & _ & Hn & _). cbn in Hn. rewrite lookup_insert in Hn. discriminate.
  - apply close_server_inv in H1 as (p & s & _ & _ & _ & _ & _ & _ & -> & _).
    apply close_server_inv in H2 as (p' & s' & _ & Hn & _). cbn in Hn. rewrite lookup_delete in Hn. discriminate.
Qed.

Lemma paid_now w pr v mk d n ok w1 lx : paid w pr v mk d n ok w1 lx -> w_now w1 = w_now w.
Proof.
  intros [[_ Ht]|(_ & -> & _)]; [|reflexivity]. apply tok_transfer_rest in Ht.
  destruct Ht as (E & _). exact E.
Qed.

Lemma claim_again w k bv bm ek ot owner pr h w' l p e r m w1 lx :
  did_claim w k bv bm ek ot owner pr h w' l p e r m w1 lx ->
  forall w2 l2 p' e' r' m' w1' lx', did_claim w' k bv bm ek ot owner pr h w2 l2 p' e' r' m' w1' lx' ->
  w2 = w' /\ only_events l2.
Proof.
  intros D w2 l2 p' e' r' m' w1' lx' D'. destruct D, D'.
  destruct dm_world as (pa & ea & Hwa & Hea & Hpa). destruct dm_world0 as (pb & eb & Hwb & Heb & Hpb).
  pose proof (paid_now _ _ _ _ _ _ _ _ _ dm_paid) as Hn1.
  assert (Hn : w_now w' = w_now w) by (rewrite Hwa; exact Hn1).
  assert (Hp' : p' = pa).
  { rewrite Hwa in dm_presale0. cbn in dm_presale0. rewrite lookup_insert in dm_presale0. congruence. }
  assert (He' : e' = ea).
  { rewrite Hwa in dm_escrow0. cbn in dm_escrow0. rewrite lookup_insert in dm_escrow0. congruence. }
  assert (Hidx : e_idx e' = e_idx e) by (rewrite He', Hea; destruct e; reflexivity).
  assert (Hr' : r' = set_r_claimed (r_claimed r + due p r e (w_now w)) r).
  { rewrite Hidx, Hp', Hpa in dm_reg0. apply lookup_lt_Some in dm_reg as Hlt.
    unfold set_reg in dm_reg0. destruct p; cbn in *. rewrite list_lookup_insert in dm_reg0 by exact Hlt. congruence. }
  assert (Hdue : due p' r' e' (w_now w') = 0).
  { rewrite Hn. unfold due at 1.
    assert (Hent : entitled p' r' (e_deposit e') (w_now w) = entitled p r (e_deposit e) (w_now w)).
    { rewrite Hr', Hp', He', Hpa, Hea. destruct p, r, e. reflexivity. }
    rewrite Hent, He', Hea. unfold due. destruct e. cbn. lia. }
  rewrite Hdue in *.
  destruct dm_paid0 as [[? _]|(_ & -> & ->)]; [lia|]. split.
  - rewrite Hwb. rewrite Hpb, Heb, !Z.add_0_r.
    replace (set_e_refreshed (w_now w') (set_e_pending 0 (set_e_claimed (e_claimed e') e'))) with e'
      by (rewrite He', Hea, Hn; destruct e; reflexivity).
    replace (set_r_claimed (r_claimed r') r') with r' by (destruct r'; reflexivity).
    rewrite set_reg_same by assumption.
    replace (set_p_claimed (p_claimed p') p') with p' by (destruct p'; reflexivity).
    apply put_back; assumption.
  - rewrite dm_fx0. intros x Hx. apply elem_of_list_singleton in Hx. eauto.
Qed.

Lemma refresh_again w k ek w' l p e e1 r :
  did_refresh w k ek w' l p e e1 r ->
  forall w2 l2 p' e' e1' r', did_refresh w' k ek w2 l2 p' e' e1' r' -> w2 = w' /\ only_events l2.
Proof.
  intros D w2 l2 p' e' e1' r' D'. destruct D, D'.
  assert (He' : e' = e1) by (rewrite df_world in df_escrow0; cbn in df_escrow0; rewrite lookup_insert in df_escrow0; congruence).
  assert (Hp' : p' = p) by (rewrite df_world in df_presale0; cbn in df_presale0; congruence).
  assert (Hn : w_now w' = w_now w) by (rewrite df_world; reflexivity).
  split; [|rewrite df_fx0; intros x Hx; apply elem_of_list_singleton in Hx; eauto].
  rewrite df_world0. replace e1' with e'; [apply put_back_escrow; assumption|].
  destruct df_what0 as [(Hs & _ & ->)|(_ & ->)]; [|reflexivity].
  rewrite Hn, Hp' in Hs. destruct df_what as [(_ & _ & He1)|(Hns & _)]; [|contradiction].
  assert (Hidx : e_idx e' = e_idx e) by (rewrite He', He1; destruct e; reflexivity).
  assert (r' = r) as -> by (rewrite Hidx, Hp' in df_reg0; congruence).
  assert (Hd : due p' r e' (w_now w') = due p r e (w_now w)) by (rewrite Hn, Hp', He', He1; destruct e; reflexivity).
  rewrite Hd, Hn, He', He1. destruct e; reflexivity.
Qed.

(** An accepted call that is sent again at once changes nothing, whatever it is, unless it is a deposit
    or a withdrawal; only claims and refreshes are accepted again, and they move no token. *)
Theorem C92_retry_does_nothing w o w' l :
  reachable w -> env_op o = false -> moves_again o = false -> step w o = Ok (w', l) ->
  exec w' o = w' /\
  forall w2 l2, step w' o = Ok (w2, l2) -> harmless o = true /\ w2 = w' /\ only_events l2.
Proof.
  intros Hw Henv Hmv Hs.
  assert (Hmain : forall w2 l2, step w' o = Ok (w2, l2) -> harmless o = true /\ w2 = w' /\ only_events l2).
  { intros w2 l2 Hs2. pose proof (reachable_inv _ Hw) as Hi.
    pose proof (reachable_inv _ (reachable_ok _ _ _ _ Hw Hs)) as Hi'.
    pose proof (step_does _ _ _ _ Hi Hs) as D. pose proof (step_does _ _ _ _ Hi' Hs2) as D'.
    destruct D; try congruence; try (subst o; discriminate Hmv).
    - exfalso. exact (aux_again _ _ _ _ _ _ H0 Hs Hs2).
    - exfalso. subst o. destruct D'; try discriminate.
      injection H0 as <- <- <- <- <- <- <- <- <- <-. destruct H1, H2. destruct di_new0 as [Hn _].
      rewrite di_world, di_key0, di_key in Hn. cbn in Hn. rewrite lookup_insert in Hn. discriminate.
    - exfalso. destruct D'; try congruence; try (subst o; discriminate H0);
        [destruct o; discriminate|].
      assert (Some (k, owner, idx) = Some (k0, owner0, idx0)) as E by congruence. injection E as <- <- <-.
      destruct H1, H3. rewrite dc_world in dc_new0. cbn in dc_new0. rewrite lookup_insert in dc_new0. discriminate.
    - exfalso. subst o. destruct D'; try discriminate. injection H0 as <- <- <- <- <- <- <- <-.
      destruct H1, H2. rewrite dr_world in dr_escrow0. cbn in dr_escrow0. rewrite lookup_insert in dr_escrow0.
      injection dr_escrow0 as <-. destruct e; discriminate.
    - subst o. destruct D'; try discriminate. injection H0 as <- <- <- <- <- <- <- <-. split; [reflexivity|].
      eapply claim_again; eassumption.
    - subst o. destruct D'; try discriminate. injection H0 as <- <-. split; [reflexivity|].
      eapply refresh_again; eassumption.
    - exfalso. subst o. destruct D'; try discriminate. injection H0 as <- <- <- <-.
      destruct H1, H2. rewrite dx_world in dx_escrow0. cbn in dx_escrow0. rewrite lookup_delete in dx_escrow0. discriminate.
    - exfalso. subst o. destruct D'; try discriminate. injection H0 as <- <- <- <- <-.
      destruct H1, H2. rewrite dcw_world in dcw_presale0. cbn in dcw_presale0. rewrite lookup_insert in dcw_presale0.
      injection dcw_presale0 as <-. destruct p; discriminate.
    - exfalso. subst o. destruct D'; try discriminate. injection H0 as <- <- <- <- <- <- <-.
      destruct H1, H2. rewrite dfe_world in dfe_presale0. cbn in dfe_presale0. rewrite lookup_insert in dfe_presale0.
      injection dfe_presale0 as <-. destruct p; discriminate.
    - exfalso. subst o. destruct D'; try discriminate. injection H0 as <- <- <- <- <- <-.
      destruct H1, H2. rewrite du_world in du_presale0. cbn in du_presale0. rewrite lookup_insert in du_presale0.
      injection du_presale0 as <-. destruct p; discriminate. }
  split; [|exact Hmain]. unfold exec. destruct (step w' o) as [[w2 l2]|er] eqn:E; [|reflexivity].
  destruct (Hmain w2 l2 eq_refl) as (_ & -> & _). reflexivity.
Qed.

End WithCrypto.

#[local] Existing Instance toy.

(** Sent twice: a refund, the creator's withdrawal and the fee collection are refused the second time, a
    claim is accepted and pays nothing more.  A deposit does count twice. *)
Example C92_met :
  let b w a := match w_tokens w !! a with Some t => t_amount t | None => 0 end in
  reachable w_pr_over /\
  accepted w_pr_over [refund alice alice_q 0; refund alice alice_q 0; cw; cw; cf; cf;
                      getb alice alice_b 0; getb alice alice_b 0] =
    [true; false; true; false; true; false; true; true] /\
  b w_pr_over alice_b = 0 /\ b (run w_pr_over [getb alice alice_b 0]) alice_b = 1496 /\
  b (run w_pr_over [getb alice alice_b 0; getb alice alice_b 0]) alice_b = 1496 /\
  accepted w_pr_open [dep bob bob_q bob 0 30; dep bob bob_q bob 0 30] = [true; true] /\
  b (run w_pr_open [dep bob bob_q bob 0 30; dep bob bob_q bob 0 30]) bob_q <
    b (run w_pr_open [dep bob bob_q bob 0 30]) bob_q.
Proof.
  cbv zeta. split; [apply reach|]. split; [vm_compute; reflexivity|]. split; [vm_compute; reflexivity|].
  split; [vm_compute; reflexivity|]. split; [vm_compute; reflexivity|]. split; vm_compute; reflexivity.
Qed.
