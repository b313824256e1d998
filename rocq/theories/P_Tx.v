(** C65: transactions with several instructions.  A Solana transaction runs its instructions in order
    and is rolled back as a whole when one of them fails.  The machine of [Exec] runs one instruction
    at a time; this file shows that grouping adds nothing. *)
From Verif Require Import Base Math State Handlers Token World Instr Exec Scenario.

Section tx.
Context `{Crypto}.

(** The instructions of one transaction, in order; the first error is the error of the whole. *)
Fixpoint steps (w : world) (l : list op) : res (world * list fx) :=
  match l with
  | [] => Ok (w, [])
  | o :: l =>
      let* y := step w o in
      let* z := steps y.1 l in
      Ok (z.1, y.2 ++ z.2)
  end.

(** A failed transaction leaves the chain as it was. *)
Definition exec_tx (w : world) (l : list op) : world :=
  match steps w l with Ok (w', _) => w' | Err _ => w end.
Definition run_tx (w : world) (txs : list (list op)) : world := foldl exec_tx w txs.

Lemma steps_run w l w' x : steps w l = Ok (w', x) -> run w l = w'.
Proof.
  revert w x. induction l as [|o l IH]; intros w x Hs; cbn in Hs.
  - injection Hs as <- _. reflexivity.
  - destruct (step w o) as [[w1 x1]|] eqn:E1; [|discriminate Hs]. cbn in Hs.
    destruct (steps w1 l) as [[w2 x2]|] eqn:E2; [|discriminate Hs]. cbn in Hs. injection Hs as <- _.
    unfold run. cbn. unfold exec at 2. rewrite E1. eapply IH. exact E2.
Qed.

(** All or nothing: either every instruction is accepted where it stands, or nothing happens. *)
Theorem C65_all_or_nothing w l :
  (exec_tx w l = run w l /\
   forall l1 o l2, l = l1 ++ o :: l2 -> exists w' x, step (run w l1) o = Ok (w', x)) \/
  (exec_tx w l = w /\
   exists l1 o l2 e, l = l1 ++ o :: l2 /\ step (run w l1) o = Err e).
Proof.
  unfold exec_tx. destruct (steps w l) as [[w' x]|e] eqn:E.
  - left. split; [symmetry; eapply steps_run; exact E|]. intros l1 o l2 ->.
    clear -E. revert w x E. induction l1 as [|o1 l1 IH]; intros w x E; cbn in E.
    + destruct (step w o) as [[w1 x1]|] eqn:E1; [|discriminate E]. exists w1, x1. exact E1.
    + destruct (step w o1) as [[w1 x1]|] eqn:E1; [|discriminate E]. cbn in E.
      destruct (steps w1 (l1 ++ o :: l2)) as [[w2 x2]|] eqn:E2; [|discriminate E].
      cbn in E. injection E as -> _.
      unfold run. cbn. unfold exec at 2. rewrite E1. eapply IH. exact E2.
  - right. split; [reflexivity|]. revert w E. induction l as [|o l IH]; intros w E; cbn in E; [discriminate E|].
    destruct (step w o) as [[w1 x1]|e1] eqn:E1; cbn in E.
    + destruct (steps w1 l) as [[w2 x2]|e2] eqn:E2; [discriminate E|]. cbn in E. injection E as ->.
      destruct (IH _ E2) as (l1 & o' & l2 & e' & -> & He). exists (o :: l1), o', l2, e'. split; [reflexivity|].
      unfold run. cbn. unfold exec at 2. rewrite E1. exact He.
    + exists [], o, l, e1. split; [reflexivity|]. exact E1.
Qed.

Lemma run_tx_run w txs : exists l, run_tx w txs = run w l.
Proof.
  revert w. induction txs as [|t txs IH]; intros w; [exists []; reflexivity|].
  cbn. destruct (IH (exec_tx w t)) as [l Hl]. destruct (C65_all_or_nothing w t) as [[He _]|[He _]].
  - exists (t ++ l). unfold run. rewrite foldl_app. unfold run_tx in Hl. rewrite Hl, He. reflexivity.
  - exists l. unfold run_tx in Hl. rewrite Hl, He. reflexivity.
Qed.

Lemma exec_tx_one w o : exec_tx w [o] = exec w o.
Proof.
  unfold exec_tx, exec. cbn. destruct (step w o) as [[w1 x1]|]; reflexivity.
Qed.

(** The states that can be reached with transactions are the reachable states, so that every theorem
    about reachable states holds with atomic transactions too. *)
Theorem C65_same_states w : (exists txs, w = run_tx genesis txs) <-> reachable w.
Proof.
  split.
  - intros [txs ->]. destruct (run_tx_run genesis txs) as [l Hl]. exists l. exact Hl.
  - intros [l ->]. exists (map (fun o => [o]) l). unfold run_tx, run. generalize genesis.
    induction l as [|o l IH]; intros w; [reflexivity|]. cbn. rewrite exec_tx_one. apply IH.
Qed.

(** The same between any two states, and with the payments and events: a transaction does what its
    instructions do one after the other. *)
Theorem C65_futures w txs : exists l, run_tx w txs = run w l /\ (forall o, o ∈ l -> exists t, t ∈ txs /\ o ∈ t).
Proof.
  revert w. induction txs as [|t txs IH]; intros w.
  { exists []. split; [reflexivity|]. intros o Ho. apply elem_of_nil in Ho. contradiction. }
  cbn. destruct (IH (exec_tx w t)) as [l [Hl Hin]]. unfold run_tx in Hl.
  destruct (C65_all_or_nothing w t) as [[He _]|[He _]].
  - exists (t ++ l). split; [unfold run; rewrite foldl_app; rewrite Hl, He; reflexivity|].
    intros o Ho. apply elem_of_app in Ho as [Ho|Ho]; [exists t; split; [left|assumption]|].
    destruct (Hin o Ho) as (t' & Ht & Ho'). exists t'. split; [right; assumption|assumption].
  - exists l. split; [rewrite Hl, He; reflexivity|].
    intros o Ho. destruct (Hin o Ho) as (t' & Ht & Ho'). exists t'. split; [right; assumption|assumption].
Qed.

End tx.

#[local] Existing Instance toy.
(** Example: alice deposits and withdraws more than they have in one transaction; nothing happens,
    although the deposit alone is accepted.  With an honest withdrawal both are executed. *)
Example C65_example :
  let bad := [dep alice alice_q alice 0 100; back alice alice_q 0 5000] in
  let good := [dep alice alice_q alice 0 100; back alice alice_q 0 50] in
  (match steps w_pr_open bad with Ok _ => 0 | Err _ => 1 end,
   ok_step w_pr_open (dep alice alice_q alice 0 100),
   match steps w_pr_open good with Ok (_, l) => length l | Err _ => 0%nat end,
   match w_presales (exec_tx w_pr_open bad) !! k1, w_presales (exec_tx w_pr_open good) !! k1 with
   | Some p, Some p' => p_deposit p' - p_deposit p | _, _ => 0 end) = (1, true, 4%nat, 50).
Proof. vm_compute. reflexivity. Qed.
