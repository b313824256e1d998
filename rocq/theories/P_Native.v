(** C100: the unsold tokens of a successful presale, when the token sold is wrapped SOL.

    [is_supported_mint] (token2022.rs:18-41) accepts every mint of SPL Token, the native one included,
    and [UnsoldTokenAction::Burn] is accepted with every mint (params.rs:185). Neither token program
    burns native tokens, so that the action of process_perform_unsold_base_token_action.rs:70-87 can
    never be performed, and there is no other way out of the base vault for unsold tokens. *)
From Coq Require Import Lia.
From Verif Require Import Base Math State Handlers Token World Instr Exec Tactics Sums Spec Arith
  TokenFacts Inv Acct Funs Steps Init Preserve Reach Did Trans Flow Scenario P_Solvency P_History
  P_Payout P_Ledger P_Mints P_Exit P_Immune.

Section WithCrypto.
Context `{Crypto}.

(** What the creator asked for cannot be done. *)
Definition unburnable (w : world) (p : presale) : Prop :=
  p_unsold p = 1 /\ exists m, w_mints w !! p_bmint p = Some m /\ m_native m = true.

Lemma burn_native w pr src mk a n w' l m :
  tok_burn_cpi w pr src mk a n = Ok (w', l) -> w_mints w !! mk = Some m -> m_native m = false.
Proof.
  unfold tok_burn_cpi, get_mint. intros Ht Hm. rewrite Hm in Ht. cbn [ok_or rbind] in Ht.
  bi Ht s Hs. bi Ht u Hu. bi Ht u2 Hu2. apply require_Ok in Hu2. destruct (m_native m); [discriminate|reflexivity].
Qed.
Lemma unburnable_rejected w k p bv bm ct pr h :
  w_presales w !! k = Some p -> unburnable w p ->
  forall w' l, step w (IUnsold k bv bm ct pr h) <> Ok (w', l).
Proof.
  intros Hp (Hu & m & Hm & Hn) w' l S. cbn in S. unfold perform_unsold_base_token_action, get_presale, get_token in S.
  bq S Hd. bclock S. bget S q Hq. bone S Hbv. bone S Hbm. bi S m0 Hm0. bget S t Ht. bq S Hata.
  bq S Hg. bq S Hdone. bi S hh Hhd. bi S amount Hamount. bq S Hpos. bi S z Hz. destruct z as [w1 fx].
  assert (q = p) as -> by congruence. unfold uaction_of_u8 in Hz. rewrite Hu in Hz. cbn in Hz.
  rewrite <- Hbm in Hz. rewrite (burn_native _ _ _ _ _ _ _ _ _ Hz Hm) in Hn. discriminate.
Qed.

Lemma unburnable_kept w o k p :
  reachable w -> w_presales w !! k = Some p -> unburnable w p -> p_unsold_done p = 0 ->
  exists p', w_presales (exec w o) !! k = Some p' /\ unburnable (exec w o) p' /\ p_unsold_done p' = 0.
Proof.
  intros Hw Hp Hu Hz. pose proof (reachable_inv _ Hw) as Hi.
  destruct (C15_terms_immutable w [o] k p Hw Hp) as (p' & Hp' & Hte & _).
  change (run w [o]) with (exec w o) in Hp'. exists p'. split; [assumption|].
  assert (Eb : p_bmint p' = p_bmint p) by (unfold terms_of in Hte; injection Hte; auto).
  assert (Eu : p_unsold p' = p_unsold p) by (unfold terms_of in Hte; injection Hte; auto).
  split.
  - destruct Hu as (Hu & m & Hm & Hn). unfold unburnable. rewrite Eb, Eu. split; [assumption|].
    destruct (C36_only_safe_mints _ _ _ Hw Hp) as (bm & qm & Hb & _ & Sb & _).
    assert (bm = m) as -> by congruence.
    destruct (powers_run w [o] _ m Hi Hm Sb) as (m' & Hm' & E). exists m'. split; [exact Hm'|].
    unfold powers in E. injection E. congruence.
  - unfold exec in Hp'. destruct (step w o) as [[w' l]|] eqn:S; [|congruence].
    destruct (does_presale _ _ _ _ k (step_does _ _ _ _ Hi S)) as
      [Hs|? ? ? ? ? ? ? ? ? ? ? ? ? ? ? ? ? ? Hno ?|? ? ? q ? ? D Hs|? ? ? ? ? ? ? ? q q2 ? ? ? ? ? ? ? ? ? D Hs
      |? ? ? ? ? ? ? ? q ? ? ? ? ? ? ? D Hs|? ? ? ? ? ? ? q ? ? ? ? ? ? D Hs|? ? ? ? ? ? ? q ? ? ? ? ? ? D Hs
      |? ? ? q ? ? ? D Hs|? ? ? ? q ? ? ? ? D Hs|? ? ? ? ? ? q ? ? ? ? D Hs|? ? ? ? ? q ? ? ? Ho D Hs].
    + congruence.
    + congruence.
    + destruct D. assert (q = p) by congruence. rewrite Hp' in Hs. injection Hs as ->. cbn. congruence.
    + destruct D. assert (q = p) by congruence. assert (p' = q2) by congruence.
      destruct dd_end as [(_ & _ & ->)|(_ & ->)]; subst; cbn; congruence.
    + destruct D. assert (q = p) by congruence. rewrite Hp' in Hs. injection Hs as ->. cbn. congruence.
    + destruct D. assert (q = p) by congruence. rewrite Hp' in Hs. injection Hs as ->. cbn. congruence.
    + destruct D. assert (q = p) by congruence. rewrite Hp' in Hs. injection Hs as ->. cbn. congruence.
    + destruct D. assert (q = p) by congruence. rewrite Hp' in Hs. injection Hs as ->. cbn. congruence.
    + destruct D. assert (q = p) by congruence. rewrite Hp' in Hs. injection Hs as ->. cbn. congruence.
    + destruct D. assert (q = p) by congruence. rewrite Hp' in Hs. injection Hs as ->. cbn. congruence.
    + exfalso. subst o. eapply unburnable_rejected; [exact Hp|exact Hu|exact S].
Qed.

(** * C100 *)

(** A presale that sells wrapped SOL and is to burn what it does not sell: whatever is done, by
    anybody and for ever after, the unsold tokens are not burned, no call to do so is accepted, and
    once the presale has succeeded the base vault holds the unsold tokens. *)
Theorem C100_native_never_burned w l k p :
  reachable w -> w_presales w !! k = Some p -> unburnable w p -> p_unsold_done p = 0 ->
  exists p', w_presales (run w l) !! k = Some p' /\ p_unsold_done p' = 0 /\
    (forall bv bm ct pr h w' x, step (run w l) (IUnsold k bv bm ct pr h) <> Ok (w', x)) /\
    (succeeded p' (w_now (run w l)) ->
       p_supply p' - lsum (sold p') (p_regs p') <= bal (run w l) (PBaseVault k)).
Proof.
  intros Hw Hp Hu Hz.
  assert (Hx : exists p', w_presales (run w l) !! k = Some p' /\ unburnable (run w l) p' /\ p_unsold_done p' = 0).
  { revert w p Hw Hp Hu Hz. induction l as [|o l IH]; intros w p Hw Hp Hu Hz; [eauto|].
    change (run w (o :: l)) with (run (exec w o) l).
    destruct (unburnable_kept w o k p Hw Hp Hu Hz) as (p1 & Hp1 & Hu1 & Hz1).
    apply (IH (exec w o) p1); try assumption. exact (reachable_run w [o] Hw). }
  destruct Hx as (p' & Hp' & Hu' & Hz'). exists p'. split; [assumption|]. split; [assumption|]. split.
  - intros bv bm ct pr h w' x. eapply unburnable_rejected; eassumption.
  - intros Hs. pose proof (reachable_run w l Hw) as Hr. pose proof (i_presales _ (reachable_inv _ Hr) _ _ Hp') as Hok.
    pose proof (unsold_room _ _ _ Hok Hs Hz') as Hroom. destruct (q_bvault _ _ _ Hok) as (v & Hv & _ & _ & _ & Hb).
    unfold bal. rewrite Hv. unfold unsold, total_sold in Hroom. lia.
Qed.

(** This is the only obstacle: when everything else is in place (C08), the call is accepted exactly
    when the action is not to burn wrapped SOL. *)
Theorem C100_unsold_accepted_iff w k p ct t h m :
  reachable w -> w_presales w !! k = Some p -> succeeded p (w_now w) -> p_unsold_done p = 0 ->
  0 < p_supply p - lsum (sold p) (p_regs p) ->
  ct = Ata (p_owner p) (p_bmint p) (m_prog m) -> w_tokens w !! ct = Some t -> t_owner t = p_owner p ->
  receivable w (PBaseVault k) (p_bmint p) ct (m_prog m) TransferHookBase (h_accounts h) h m ->
  (exists w' l, step w (IUnsold k (PBaseVault k) (p_bmint p) ct (m_prog m) h) = Ok (w', l)) <->
  (p_unsold p = 1 -> m_native m = false).
Proof.
  intros Hw Hp Hsu Hz Hpos Hct Ht Hto Hrc. split.
  - intros (w' & l & S) Hu. destruct (m_native m) eqn:Hn; [|reflexivity]. exfalso.
    eapply (unburnable_rejected w k p); [exact Hp| |exact S]. split; [assumption|]. exists m. split; [apply Hrc|assumption].
  - intros Hnat. eapply C08_unsold_succeeds; eassumption.
Qed.
End WithCrypto.

#[local] Existing Instance toy.
(** The fixed price scenario, selling wrapped SOL. *)
Definition wsol : mint := mkMint SplToken true [] None None None false 0 0.
Definition nat_b := Ata creator bmint SplToken.
Definition nat_over : list op := [
  EClock 1000; ECreateMint bmint wsol; ECreateMint qmint (plain SplToken None);
  ECreateToken nat_b bmint creator; ECreateToken creator_q qmint creator;
  ECreateToken alice_q qmint alice; ECreateToken alice_b bmint alice;
  EMintTo bmint nat_b 100000; EMintTo qmint alice_q 10000;
  IInitFixedArgs k1 creator creator 0 fx_price;
  IInitPresale base1 bmint qmint nat_b creator creator SplToken SplToken fx_args (mkHenv [PFixedArgs k1] [] true);
  IEscrowPermissionless k1 alice alice; dep alice alice_q alice 0 1600; EClock 2000 ].
Definition w_nat : world := run genesis nat_over.
Definition nat_facts (w : world) : option (bool * bool * bool * bool) :=
  match w_presales w !! k1 with
  | Some p => Some ((p_end p <=? w_now w) && (p_min_cap p <=? p_deposit p), p_unsold p =? 1, p_unsold_done p =? 0,
      match w_mints w !! p_bmint p with Some m => m_native m | None => false end)
  | None => None
  end.
Lemma nat_computed : nat_facts w_nat = Some (true, true, true, true).
Proof. vm_compute. reflexivity. Qed.
Lemma nat_unsold : exists p, w_presales w_nat !! k1 = Some p /\
  0 < p_supply p - lsum (sold p) (p_regs p) /\ (0 <? p_supply p - lsum (sold p) (p_regs p)) = true.
Proof. eexists. split; [vm_compute; reflexivity|]. split; vm_compute; reflexivity. Qed.

(** It is not so that the unsold tokens of a successful presale can always be dealt with in the end. *)
Theorem C100_unsold_always_handled_refuted :
  exists w k p, reachable w /\ w_presales w !! k = Some p /\ succeeded p (w_now w) /\
    0 < p_supply p - lsum (sold p) (p_regs p) /\
    forall l, exists p', w_presales (run w l) !! k = Some p' /\ p_unsold_done p' = 0 /\
      (forall bv bm ct pr h w' x, step (run w l) (IUnsold k bv bm ct pr h) <> Ok (w', x)) /\
      p_supply p - lsum (sold p) (p_regs p) <= bal (run w l) (PBaseVault k).
Proof.
  pose proof nat_computed as Hf. destruct nat_unsold as (p & Hp & Hpos & _).
  assert (Hw : reachable w_nat) by (exists nat_over; reflexivity). exists w_nat, k1, p.
  revert Hf Hp Hw. generalize w_nat. intros w Hf Hp Hw. unfold nat_facts in Hf. rewrite Hp in Hf.
  injection Hf as F1 F2 F3 F4. apply andb_true_iff in F1 as [F1 F0]. apply Z.leb_le in F1, F0. apply Z.eqb_eq in F2, F3.
  assert (Hs : succeeded p (w_now w)) by (split; assumption).
  do 4 (split; [assumption|]). intros l.
  assert (Hu : unburnable w p).
  { split; [assumption|]. destruct (w_mints w !! p_bmint p) as [m|]; [|discriminate]. eauto. }
  destruct (C100_native_never_burned w l k1 p Hw Hp Hu F3) as (p' & Hp' & Hz & Hr & Hb).
  exists p'. do 3 (split; [assumption|]).
  destruct (C16_outcome_final w l k1 p Hw Hp F1) as (q & Hq & _ & Hde & Hte & _ & Ho & _).
  assert (q = p') as -> by congruence. specialize (Hb (proj2 Ho Hs)).
  fold (total_sold p') in Hb. fold (unsold p') in Hb. fold (total_sold p). fold (unsold p).
  destruct (same_money _ _ Hte Hde) as (_ & _ & _ & _ & _ & _ & _ & E & _). rewrite <- E. assumption.
Qed.
