(** C95: what a transfer hook does with tokens while an instruction is under way. *)
From Coq Require Import Lia.
From Verif Require Import Base Math State Handlers Token World Instr Exec Tactics Sums Spec Arith
  TokenFacts Inv Acct Funs Steps Init Preserve Reach Did Trans Flow Scenario.

(** The accounts of the program as in [r], tokens, mints and clock as in [w]. *)
Definition records (r w : world) : world :=
  mkW (w_now w) (w_presales r) (w_escrows r) (w_tokens w) (w_mints w) (w_fixed r) (w_merkles r)
    (w_opers r) (w_servers r).

(** One call of a token program, or none. *)
Inductive token_call (w w' : world) (l : list fx) : Prop :=
| tc_none : w' = w -> l = [] -> token_call w w' l
| tc_transfer pr src mk dst auth n ok :
    tok_transfer w pr src mk dst auth n ok = Ok (w', l) -> token_call w w' l
| tc_burn pr src mk auth n : tok_burn w pr src mk auth n = Ok (w', l) -> token_call w w' l.

(** The vaults that Anchor creates before the handler runs. *)
Definition accounts_made (o : op) (w : world) : world :=
  match o with
  | IInitPresale base bmint qmint _ _ _ _ _ _ _ => with_vaults (PPresale base bmint qmint) bmint qmint w
  | _ => w
  end.

Definition rmap (f : world -> world) (x : res (world * list fx)) : res (world * list fx) :=
  match x with Ok (w, l) => Ok (f w, l) | Err e => Err e end.

Section WithCrypto.
Context `{Crypto}.

Ltac both := repeat (
  match goal with
  | |- context [rbind (require ?b ?e) _] => destruct b; cbn [require rbind rmap]; [|reflexivity]
  | |- context [rbind (ok_or ?x ?e) _] => destruct x; cbn [ok_or rbind rmap]; [|reflexivity]
  | |- context [rbind ?x _] => destruct x; cbn [rbind rmap]; [|reflexivity]
  end; try reflexivity).

Lemma transfer_records r w pr src mk dst auth n ok :
  tok_transfer (records r w) pr src mk dst auth n ok = rmap (records r) (tok_transfer w pr src mk dst auth n ok).
Proof.
  unfold tok_transfer, get_mint, get_token. change (w_mints (records r w)) with (w_mints w).
  change (w_tokens (records r w)) with (w_tokens w). both.
  destruct (beq_addr src dst); cbn [rmap]; [reflexivity|]. both.
Qed.
Lemma checked_records r w pr src mk dst auth n memo cpi ok :
  tok_transfer_checked (records r w) pr src mk dst auth n memo cpi ok =
  rmap (records r) (tok_transfer_checked w pr src mk dst auth n memo cpi ok).
Proof.
  unfold tok_transfer_checked, get_mint, get_token. change (w_mints (records r w)) with (w_mints w).
  change (w_tokens (records r w)) with (w_tokens w). both.
  all: apply transfer_records.
Qed.
Lemma burn_records r w pr src mk auth n :
  tok_burn (records r w) pr src mk auth n = rmap (records r) (tok_burn w pr src mk auth n).
Proof.
  unfold tok_burn, get_mint, get_token. change (w_mints (records r w)) with (w_mints w).
  change (w_tokens (records r w)) with (w_tokens w). both.
Qed.

(** Token operations neither look at the accounts of the program nor change them. *)
Lemma env_records r w o : env_op o = true -> step (records r w) o = rmap (records r) (step w o).
Proof.
  intros Ho. destruct o; try discriminate Ho; cbn [step].
  all: unfold env_clock, env_create_mint, env_close_mint, env_create_token, env_close_token, env_transfer, env_burn,
    env_mint_to, env_approve, env_revoke, env_set_owner, env_set_memo, env_set_guard, env_freeze, env_set_fee, env_set_hook,
    env_withdraw_withheld, env_ok, get_mint, get_token, signer;
    change (w_mints (records r w)) with (w_mints w);
    change (w_tokens (records r w)) with (w_tokens w); change (w_now (records r w)) with (w_now w); both.
  all: try apply checked_records; try apply burn_records.
Qed.
Lemma env_run_records r w l :
  forallb env_op l = true -> run (records r w) l = records r (run w l).
Proof.
  revert w. induction l as [|o l IH]; intros w Hl; [reflexivity|]. cbn in Hl. apply andb_true_iff in Hl as [Ho Hl].
  change (run (exec (records r w) o) l = records r (run (exec w o) l)). rewrite <- IH by assumption. f_equal.
  unfold exec. rewrite env_records by assumption. destruct (step w o) as [[w' fx]|]; reflexivity.
Qed.

Lemma records_id w : records w w = w.
Proof. destruct w; reflexivity. Qed.

(** Every accepted instruction calls a token program at most once; the rest is writing its own accounts. *)
Lemma paid_call w pr v mk d n ok w1 lx : paid w pr v mk d n ok w1 lx -> token_call w w1 lx.
Proof. intros [[_ Ht]|(_ & -> & ->)]; [eapply tc_transfer; exact Ht|apply tc_none; reflexivity]. Qed.
Lemma one_event ev x : x ∈ [FxEvent ev] -> exists ev', x = FxEvent ev'.
Proof. intros Hx. apply elem_of_list_singleton in Hx. eauto. Qed.

Lemma one_call w o w' l :
  reachable w -> env_op o = false -> step w o = Ok (w', l) ->
  exists w1 lx evs, token_call (accounts_made o w) w1 lx /\ records w' w1 = w' /\ l = lx ++ evs /\
    (forall x, x ∈ evs -> exists ev, x = FxEvent ev).
Proof.
  intros Hw Henv Hs. pose proof (step_does _ _ _ _ (reachable_inv _ Hw) Hs) as D.
  assert (Hnone : forall ev, w_now w' = w_now w -> w_tokens w' = w_tokens w -> w_mints w' = w_mints w ->
    accounts_made o w = w -> l = [] \/ l = [FxEvent ev] ->
    exists w1 lx evs, token_call (accounts_made o w) w1 lx /\ records w' w1 = w' /\ l = lx ++ evs /\
      (forall x, x ∈ evs -> exists ev, x = FxEvent ev)).
  { intros ev En Et Em Ea Hl. exists w, [], l. split; [apply tc_none; auto|]. split.
    - unfold records. rewrite <- En, <- Et, <- Em. destruct w'; reflexivity.
    - split; [reflexivity|]. destruct Hl as [-> | ->]; intros x Hx; [apply elem_of_nil in Hx; contradiction|].
      apply elem_of_list_singleton in Hx. eauto. }
  destruct D; try congruence.
  - match goal with X : _ \/ l = [] |- _ => destruct X as [[ev ->]| ->] end; [apply (Hnone ev)|apply (Hnone (EvtEscrowClose k1 k1 k1 k1))]; auto;
      destruct o; try discriminate; reflexivity.
  - subst o. destruct H1. destruct di_fx as [ev ->]. exists w1, lx, [FxEvent ev].
    split; [eapply tc_transfer; cbn [accounts_made]; rewrite <- di_key; exact di_transfer|].
    split; [rewrite di_world; reflexivity|]. split; [reflexivity|apply one_event].
  - destruct H1. eapply Hnone; try (rewrite dc_world; reflexivity); [|right; exact dc_fx].
    destruct o; try discriminate; reflexivity.
  - subst o. destruct H1. exists w1, lx. eexists. split; [eapply tc_transfer; exact dd_transfer|].
    split; [rewrite dd_world; reflexivity|]. split; [exact dd_fx|apply one_event].
  - subst o. destruct H1. exists w1, lx. eexists. split; [eapply tc_transfer; exact dw_transfer|].
    split; [rewrite dw_world; reflexivity|]. split; [exact dw_fx|apply one_event].
  - subst o. destruct H1. exists w1, lx. eexists. split; [eapply paid_call; exact dr_paid|].
    split; [rewrite dr_world; reflexivity|]. split; [exact dr_fx|apply one_event].
  - subst o. destruct H1. exists w1, lx. eexists. split; [eapply paid_call; exact dm_paid|].
    split; [destruct dm_world as (? & ? & -> & _); reflexivity|]. split; [exact dm_fx|apply one_event].
  - subst o. destruct H1. eapply Hnone; try (rewrite df_world; reflexivity); [reflexivity|right; exact df_fx].
  - subst o. destruct H1. eapply Hnone; try (rewrite dx_world; reflexivity); [reflexivity|right; exact dx_fx].
  - subst o. destruct H1.
    destruct dcw_what as [(_ & _ & Ht & Hl)|(_ & _ & Ht & Hl)]; exists w1, lx; eexists;
      (split; [eapply tc_transfer; exact Ht|]); (split; [rewrite dcw_world; reflexivity|]);
      (split; [exact Hl|apply one_event]).
  - subst o. destruct H1. exists w1, lx. eexists. split; [eapply paid_call; exact dfe_paid|].
    split; [rewrite dfe_world; reflexivity|]. split; [exact dfe_fx|apply one_event].
  - subst o. destruct H1. exists w1, lx. eexists.
    split; [destruct du_what as [[_ Ht]|[_ Ht]]; [eapply tc_burn|eapply tc_transfer]; exact Ht|].
    split; [rewrite du_world; reflexivity|]. split; [exact du_fx|apply one_event].
Qed.

Lemma made_records r o w : accounts_made o (records r w) = records r (accounts_made o w).
Proof. destruct o; reflexivity. Qed.
Lemma call_records r w w1 l : token_call w w1 l -> token_call (records r w) (records r w1) l.
Proof.
  intros [-> ->|pr src mk dst auth n ok Ht|pr src mk auth n Ht].
  - apply tc_none; reflexivity.
  - eapply tc_transfer. rewrite transfer_records, Ht. reflexivity.
  - eapply tc_burn. rewrite burn_records, Ht. reflexivity.
Qed.

(** The handlers write their accounts before they call the token program; the model does it
    afterwards.  It makes no difference: from the state in which the accounts are written and the
    tokens are not yet moved, one call of a token program leads to the same final state. *)
Theorem C95_accounts_first w o w' l :
  reachable w -> env_op o = false -> step w o = Ok (w', l) ->
  exists lx evs, token_call (accounts_made o (records w' w)) w' lx /\ l = lx ++ evs /\
    (forall x, x ∈ evs -> exists ev, x = FxEvent ev).
Proof.
  intros Hw Henv Hs. destruct (one_call _ _ _ _ Hw Henv Hs) as (w1 & lx & evs & Hc & Hr & Hl & He).
  exists lx, evs. split; [|auto]. rewrite made_records.
  pose proof (call_records w' _ _ _ Hc) as Hc'. rewrite Hr in Hc'. exact Hc'.
Qed.

(** A transfer hook runs inside that call, after the tokens have moved, and may do with tokens, mints
    and delegations whatever anybody can do ([effects]).  Done in the middle of the instruction, before
    the accounts are written, or after it: the same state, which the theorems about reachable states
    cover. *)
Theorem C95_hook_effects w o w' l effects :
  reachable w -> env_op o = false -> step w o = Ok (w', l) -> forallb env_op effects = true ->
  exists w1 lx evs, token_call (accounts_made o w) w1 lx /\ l = lx ++ evs /\
    (forall x, x ∈ evs -> exists ev, x = FxEvent ev) /\
    records w' (run w1 effects) = run w' effects /\ reachable (records w' (run w1 effects)).
Proof.
  intros Hw Henv Hs Hf. destruct (one_call _ _ _ _ Hw Henv Hs) as (w1 & lx & evs & Hc & Hr & Hl & He).
  exists w1, lx, evs. split; [assumption|]. split; [assumption|]. split; [assumption|].
  assert (E : records w' (run w1 effects) = run w' effects)
    by (rewrite <- env_run_records by assumption; rewrite Hr; reflexivity).
  split; [assumption|]. rewrite E. apply reachable_run. eapply reachable_ok; eassumption.
Qed.

End WithCrypto.

#[local] Existing Instance toy.

(** A hook that, during a claim, hands some of the buyer's other tokens to a third person and lets
    somebody spend from an account. *)
Definition hook_does : list op := [
  ETransfer alice_q qmint carol_q alice SplToken 7 false true true; EApprove bob_q bob carol 5 ].
Example C95_met :
  ok_step w_pr_over (getb alice alice_b 0) = true /\ env_op (getb alice alice_b 0) = false /\
  forallb env_op hook_does = true /\
  bal (run (after w_pr_over (getb alice alice_b 0)) hook_does) carol_q = bal w_pr_over carol_q + 7 /\
  bal (run (after w_pr_over (getb alice alice_b 0)) hook_does) alice_b > bal w_pr_over alice_b.
Proof. vm_compute. auto. Qed.
