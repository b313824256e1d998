(** C36: which mints are admitted.  C37: how the extra accounts for transfer hooks are split. *)
From Coq Require Import Lia.
From Verif Require Import Base Math State Handlers Token World Instr Exec Tactics Sums Spec Arith
  TokenFacts Inv Acct Funs Steps Init Preserve Reach Did Trans Flow Scenario P_Solvency P_Access.

(** * C36 *)

(** A mint of the original token program, or a Token-2022 mint that is not the native one and has
    no extension other than transfer fee and transfer hook (which carry data, see [mint]),
    metadata pointer and metadata; in particular no permanent delegate. *)
Definition harmless (m : mint) : Prop :=
  m_prog m = SplToken \/
  (m_prog m = Token2022 /\ m_native m = false /\ m_delegate m = None /\
   forall e, e ∈ m_exts m -> e = ExtMetadataPointer \/ e = ExtTokenMetadata).

Theorem C36_supported_iff m : is_supported_mint m = true <-> harmless m.
Proof.
  unfold is_supported_mint, harmless. destruct (m_prog m); [split; auto|].
  rewrite !andb_true_iff, negb_true_iff, forallb_forall.
  assert (Hd : match m_delegate m with Some _ => false | None => true end = true <-> m_delegate m = None).
  { destruct (m_delegate m); split; congruence. }
  rewrite Hd. clear Hd. split.
  - intros [[H1 H2] H3]. right. split; [reflexivity|]. split; [assumption|]. split; [assumption|].
    intros e He. apply elem_of_list_In in He. apply H3 in He. destruct e; auto; discriminate.
  - intros [?|(_ & H1 & H2 & H3)]; [discriminate|]. split; [auto|]. intros e He. apply elem_of_list_In in He.
    destruct (H3 e He) as [->| ->]; reflexivity.
Qed.

Section WithCrypto.
Context `{Crypto}.

(** In every reachable state both mints of every presale exist and are harmless. *)
Theorem C36_only_safe_mints w k p :
  reachable w -> w_presales w !! k = Some p ->
  exists bm qm, w_mints w !! p_bmint p = Some bm /\ w_mints w !! p_qmint p = Some qm /\
    harmless bm /\ harmless qm /\ m_prog bm = p_bprog p /\ m_prog qm = p_qprog p.
Proof.
  intros Hw Hp. destruct (i_presales _ (reachable_inv _ Hw) _ _ Hp) as [_ Hq Hb _ _ _].
  destruct Hq as (qm & Hqm & Hqs & Hqp), Hb as (bm & Hbm & Hbs & Hbp).
  exists bm, qm. rewrite <- !C36_supported_iff. tauto.
Qed.

(** Creation with any other mint is rejected. *)
Theorem C36_unsafe_mint_rejected w base bmint qmint pt creator payer bp qp a h bm qm :
  w_mints w !! bmint = Some bm -> w_mints w !! qmint = Some qm -> ~ (harmless bm /\ harmless qm) ->
  forall w' l, step w (IInitPresale base bmint qmint pt creator payer bp qp a h) <> Ok (w', l).
Proof.
  intros Hbm Hqm Hn w' l Hs. cbn [step] in Hs.
  apply init_inv in Hs as (bm' & qm' & p & rest & hooks & rest' & pool & amount & w2 & fx & Hs). cbv zeta in Hs.
  apply Hn. rewrite <- !C36_supported_iff.
  replace bm' with bm in * by (destruct Hs as (_ & _ & ? & _); congruence).
  replace qm' with qm in * by (destruct Hs as (_ & _ & _ & ? & _); congruence). tauto.
Qed.

(** Hence nothing that happens outside the program, including anything a mint authority, a fee
    authority, a delegate or a permanent delegate of some mint can do, takes tokens out of a
    vault. *)
Theorem C36_outsiders_cannot_touch_vaults w o w' l k p :
  reachable w -> w_presales w !! k = Some p -> env_op o = true -> step w o = Ok (w', l) ->
  bal w (PQuoteVault k) <= bal w' (PQuoteVault k) /\ bal w (PBaseVault k) <= bal w' (PBaseVault k).
Proof.
  intros Hw Hp Ho Hs. pose proof (reachable_inv _ Hw) as Hi.
  pose proof (env_safe _ _ _ _ Hi Ho Hs) as Hv. destruct (i_presales _ Hi _ _ Hp) as [_ Hq Hb Hvq Hvb _].
  split; [exact (Hv _ _ _ _ Hq Hvq)|exact (Hv _ _ _ _ Hb Hvb)].
Qed.

End WithCrypto.

(** * C37 *)

Definition hooks_for (t : accounts_type) (h : parsed_hooks) : option (list addr) :=
  match t with TransferHookBase => ph_base h | TransferHookQuote => ph_quote h end.

(** The part labelled [t]. *)
Fixpoint labelled (t : accounts_type) (l : list (ra_slice * list addr)) : option (list addr) :=
  match l with
  | [] => None
  | (s, part) :: l => if bool_decide (sl_type s = t) then Some part else labelled t l
  end.

(** The slices cut consecutive, disjoint parts of the declared lengths off the front of the
    accounts; empty slices cut nothing; every slice has a type allowed here, no type is cut
    twice. *)
Record splits (accts : list addr) (slices : list ra_slice) (valid : list accounts_type)
    (hooks : parsed_hooks) (rest : list addr) (cut : list (ra_slice * list addr)) : Prop := {
  sp_slices : map fst cut = List.filter (fun s => negb (sl_len s =? 0)) slices;
  sp_order : accts = concat (map snd cut) ++ rest;
  sp_lengths : forall s part, (s, part) ∈ cut -> Z.of_nat (length part) = sl_len s;
  sp_valid : forall s, s ∈ slices -> sl_type s ∈ valid;
  sp_once : NoDup (map (fun x => sl_type (fst x)) cut);
  sp_labels : forall t, hooks_for t hooks = labelled t cut
}.

Lemma labelled_none t l : labelled t l = None <-> t ∉ map (fun x => sl_type (fst x)) l.
Proof.
  induction l as [|[s part] l IH]; cbn; [split; [intros _ Hx; inversion Hx|reflexivity]|].
  rewrite not_elem_of_cons. destruct (bool_decide (sl_type s = t)) eqn:E.
  - apply bool_decide_eq_true in E. split; [discriminate|]. intros [Hn _]. congruence.
  - apply bool_decide_eq_false in E. rewrite IH. split; [intros; split; [congruence|assumption]|tauto].
Qed.

(** With something in the accumulator already. *)
Lemma parse_loop_iff valid slices : forall accts acc hooks rest,
  (forall s, s ∈ slices -> 0 <= sl_len s) ->
  parse_loop slices valid accts acc = Ok (hooks, rest) <->
  exists cut,
    map fst cut = List.filter (fun s => negb (sl_len s =? 0)) slices /\
    accts = concat (map snd cut) ++ rest /\
    (forall s part, (s, part) ∈ cut -> Z.of_nat (length part) = sl_len s) /\
    (forall s, s ∈ slices -> sl_type s ∈ valid) /\
    NoDup (map (fun x => sl_type (fst x)) cut) /\
    (forall t, labelled t cut <> None -> hooks_for t acc = None) /\
    (forall t, hooks_for t hooks = match labelled t cut with Some part => Some part | None => hooks_for t acc end).
Proof.
  induction slices as [|s slices IH]; intros accts acc hooks rest Hpos; cbn [parse_loop List.filter].
  - split.
    + intros E. injection E as <- <-. exists []. cbn. split; [reflexivity|]. split; [reflexivity|].
      split; [intros ? ? Hx; inversion Hx|]. split; [intros ? Hx; inversion Hx|].
      split; [constructor|]. split; [intros t Ht; contradiction|reflexivity].
    + intros (cut & H1 & H2 & _ & _ & _ & _ & H7). destruct cut; [|discriminate]. cbn in H2. subst accts.
      f_equal. f_equal. pose proof (H7 TransferHookBase) as Hb. pose proof (H7 TransferHookQuote) as Hq. cbn in Hb, Hq.
      destruct acc, hooks. cbn in *. congruence.
  - assert (Hpos' : forall x, x ∈ slices -> 0 <= sl_len x) by (intros x Hx; apply Hpos; right; assumption).
    assert (H0 : 0 <= sl_len s) by (apply Hpos; left).
    destruct (bool_decide (sl_type s ∈ valid)) eqn:Hv; cbn [negb].
    2:{ apply bool_decide_eq_false in Hv. split; [discriminate|]. intros (cut & _ & _ & _ & Hval & _).
        exfalso. apply Hv, Hval. left. }
    apply bool_decide_eq_true in Hv.
    destruct (Z.eqb_spec (sl_len s) 0) as [Hz|Hz]; cbn [negb].
    + rewrite (IH accts acc hooks rest Hpos'). split.
      * intros (cut & H1 & H2 & H3 & H4 & H5). exists cut. split; [assumption|]. split; [assumption|].
        split; [assumption|]. split; [|assumption]. intros x Hx. apply elem_of_cons in Hx as [->|Hx]; auto.
      * intros (cut & H1 & H2 & H3 & H4 & H5). exists cut. split; [assumption|]. split; [assumption|].
        split; [assumption|]. split; [|assumption]. intros x Hx. apply H4. right. assumption.
    + destruct (Z.ltb_spec (Z.of_nat (length accts)) (sl_len s)) as [Hlt|Hge].
      { split; [discriminate|]. intros (cut & H1 & H2 & H3 & _). exfalso.
        destruct cut as [|[s' part] cut]; [discriminate|]. cbn in H1. injection H1 as -> _.
        specialize (H3 s part ltac:(left)). rewrite H2 in Hlt. cbn in Hlt. rewrite !app_length in Hlt. lia. }
      set (n := Z.to_nat (sl_len s)) in *.
      assert (Hgen : forall acc', (forall t, hooks_for t acc' = if bool_decide (sl_type s = t) then Some (take n accts) else hooks_for t acc) ->
        hooks_for (sl_type s) acc = None ->
        (parse_loop slices valid (drop n accts) acc' = Ok (hooks, rest) <->
         exists cut,
          map fst cut = s :: List.filter (fun s => negb (sl_len s =? 0)) slices /\
          accts = concat (map snd cut) ++ rest /\
          (forall s part, (s, part) ∈ cut -> Z.of_nat (length part) = sl_len s) /\
          (forall x, x ∈ s :: slices -> sl_type x ∈ valid) /\
          NoDup (map (fun x => sl_type (fst x)) cut) /\
          (forall t, labelled t cut <> None -> hooks_for t acc = None) /\
          (forall t, hooks_for t hooks = match labelled t cut with Some part => Some part | None => hooks_for t acc end))).
      { intros acc' Hacc' Hnone. rewrite (IH (drop n accts) acc' hooks rest Hpos'). split.
        - intros (cut & H1 & H2 & H3 & H4 & H5 & H6 & H7). exists ((s, take n accts) :: cut).
          assert (Hnew : labelled (sl_type s) cut = None).
          { destruct (labelled (sl_type s) cut) eqn:E; [|reflexivity]. specialize (H6 (sl_type s)).
            rewrite Hacc', bool_decide_eq_true_2 in H6 by reflexivity. specialize (H6 ltac:(congruence)). discriminate. }
          cbn [map fst snd concat labelled]. split; [congruence|].
          split; [rewrite <- app_assoc, <- H2; symmetry; apply take_drop|].
          split. { intros x part Hx. apply elem_of_cons in Hx as [Hx|Hx]; [|auto]. injection Hx as -> ->.
                   rewrite take_length. lia. }
          split. { intros x Hx. apply elem_of_cons in Hx as [->|Hx]; auto. }
          split; [constructor; [apply labelled_none; assumption|assumption]|].
          split.
          + intros t Ht. destruct (bool_decide (sl_type s = t)) eqn:E; [apply bool_decide_eq_true in E; congruence|].
            specialize (H6 t Ht). rewrite Hacc', E in H6. assumption.
          + intros t. rewrite H7, Hacc'. destruct (bool_decide (sl_type s = t)) eqn:E; [|reflexivity].
            apply bool_decide_eq_true in E. subst t. rewrite Hnew. reflexivity.
        - intros (cut & H1 & H2 & H3 & H4 & H5 & H6 & H7). destruct cut as [|[s' part] cut]; [discriminate|].
          cbn [map fst snd concat labelled] in *. injection H1 as -> H1.
          assert (Hlen : length part = n). { specialize (H3 s part ltac:(left)). unfold n. lia. }
          assert (Ht : take n accts = part) by (rewrite H2, <- app_assoc, take_app_alt; auto).
          assert (Hd : drop n accts = concat (map snd cut) ++ rest) by (rewrite H2, <- app_assoc, drop_app_alt; auto).
          apply list.NoDup_cons in H5 as [Hnin H5]. apply labelled_none in Hnin.
          exists cut. split; [assumption|]. split; [assumption|].
          split; [intros x y Hx; apply H3; right; assumption|].
          split; [intros x Hx; apply H4; right; assumption|]. split; [assumption|].
          split.
          + intros t Hl. rewrite Hacc'. destruct (bool_decide (sl_type s = t)) eqn:E.
            { apply bool_decide_eq_true in E. subst t. contradiction. }
            specialize (H6 t). rewrite E in H6. auto.
          + intros t. rewrite H7, Hacc', Ht. destruct (bool_decide (sl_type s = t)) eqn:E; [|reflexivity].
            apply bool_decide_eq_true in E. subst t. rewrite Hnin. reflexivity. }
      assert (Hdup : forall x, hooks_for (sl_type s) acc = Some x -> ~ exists cut,
          map fst cut = s :: List.filter (fun s => negb (sl_len s =? 0)) slices /\
          accts = concat (map snd cut) ++ rest /\
          (forall s part, (s, part) ∈ cut -> Z.of_nat (length part) = sl_len s) /\
          (forall x, x ∈ s :: slices -> sl_type x ∈ valid) /\
          NoDup (map (fun x => sl_type (fst x)) cut) /\
          (forall t, labelled t cut <> None -> hooks_for t acc = None) /\
          (forall t, hooks_for t hooks = match labelled t cut with Some part => Some part | None => hooks_for t acc end)).
      { intros x Hx (cut & H1 & _ & _ & _ & _ & H6 & _). destruct cut as [|[s' part] cut]; [discriminate|].
        cbn in H1. injection H1 as -> _. specialize (H6 (sl_type s)). cbn in H6.
        rewrite bool_decide_eq_true_2 in H6 by reflexivity. specialize (H6 ltac:(discriminate)). congruence. }
      destruct (sl_type s) eqn:Hty.
      * destruct (ph_base acc) as [x|] eqn:Hb.
        { split; [discriminate|]. intros Hc. exfalso. exact (Hdup x Hb Hc). }
        apply Hgen; [|assumption]. intros []; reflexivity.
      * destruct (ph_quote acc) as [x|] eqn:Hb.
        { split; [discriminate|]. intros Hc. exfalso. exact (Hdup x Hb Hc). }
        apply Hgen; [|assumption]. intros []; reflexivity.
Qed.

(** The parser succeeds exactly when the accounts can be split as declared, and then returns that
    split. *)
Theorem C37_split_iff accts slices valid hooks rest :
  (forall s, s ∈ slices -> 0 <= sl_len s <= 255) ->
  parse_remaining_accounts_for_transfer_hook accts slices valid = Ok (hooks, rest) <->
  exists cut, splits accts slices valid hooks rest cut.
Proof.
  intros Hpos.
  assert (Hl : parse_remaining_accounts_for_transfer_hook accts slices valid =
    parse_loop slices valid accts (mkParsed None None)) by (destruct slices; reflexivity).
  rewrite Hl, parse_loop_iff by (intros s Hs; apply Hpos in Hs; lia).
  assert (Hn : forall t, hooks_for t (mkParsed None None) = None) by (intros []; reflexivity).
  split.
  - intros (cut & H1 & H2 & H3 & H4 & H5 & H6 & H7). exists cut. constructor; auto.
    intros t. rewrite H7, Hn. destruct (labelled t cut); reflexivity.
  - intros (cut & [H1 H2 H3 H4 H5 H6]). exists cut. repeat (split; [assumption|]). split; [auto|].
    intros t. rewrite H6, Hn. destruct (labelled t cut); reflexivity.
Qed.

Definition hooked (m : mint) : Prop := m_prog m = Token2022 /\ m_hook m = Some true.
Definition passes_accounts (h : henv) : Prop := exists s, s ∈ h_slices h /\ sl_len s <> 0.

(** A type that is not allowed, one cut twice, or too few accounts: rejected. *)
Corollary C37_bad_slices_rejected accts slices valid :
  (forall s, s ∈ slices -> 0 <= sl_len s <= 255) ->
  (exists s, s ∈ slices /\ sl_type s ∉ valid) \/
  ~ NoDup (map sl_type (List.filter (fun s => negb (sl_len s =? 0)) slices)) \/
  Z.of_nat (length accts) < lsum sl_len slices ->
  exists e, parse_remaining_accounts_for_transfer_hook accts slices valid = Err e.
Proof.
  intros Hpos Hbad. destruct (parse_remaining_accounts_for_transfer_hook accts slices valid) as [[hooks rest]|e] eqn:Hp; [|eauto].
  exfalso. apply C37_split_iff in Hp as (cut & [H1 H2 H3 H4 H5 _]); [|assumption].
  destruct Hbad as [(s & Hs & Hn)|[Hn|Hn]].
  - apply Hn, H4. assumption.
  - apply Hn. rewrite <- H1, map_map. assumption.
  - assert (Hsum : lsum sl_len (List.filter (fun s => negb (sl_len s =? 0)) slices) = lsum sl_len slices).
    { clear. induction slices as [|s l IH]; cbn; [reflexivity|]. destruct (Z.eqb_spec (sl_len s) 0); cbn; lia. }
    rewrite <- Hsum, <- H1 in Hn. rewrite H2, app_length in Hn. clear -Hn H3.
    assert (Hl : lsum sl_len (map fst cut) = Z.of_nat (length (concat (map snd cut)))); [|lia].
    clear Hn. induction cut as [|[s part] cut IH]; cbn; [reflexivity|]. rewrite app_length.
    rewrite IH by (intros x y Hx; apply H3; right; assumption). specialize (H3 s part ltac:(left)). lia.
Qed.

Lemma parse_one m ty accts h hooks rest :
  parse_remaining_accounts_for_transfer_hook accts (h_slices h) [ty] = Ok (hooks, rest) ->
  henv_decodes h = true -> check_hook_accounts m (hooks_for ty hooks) = Ok tt ->
  hooked m <-> passes_accounts h.
Proof.
  intros Hp Hd Hc.
  assert (Hpos : forall s, s ∈ h_slices h -> 0 <= sl_len s <= 255).
  { unfold henv_decodes in Hd. rewrite forallb_forall in Hd. intros s Hs. apply elem_of_list_In in Hs.
    apply Hd in Hs. unfold in_u8 in Hs. num. lia. }
  apply C37_split_iff in Hp as (cut & [H1 _ _ H4 _ H6]); [|assumption].
  assert (Hs : hooks_for ty hooks <> None <-> passes_accounts h).
  { rewrite H6. split.
    - intros Hl. destruct cut as [|[s part] cut]; [contradiction|]. exists s.
      assert (Hin : In s (List.filter (fun s => negb (sl_len s =? 0)) (h_slices h))) by (rewrite <- H1; left; reflexivity).
      apply filter_In in Hin as [Hin Hnz]. apply elem_of_list_In in Hin. split; [assumption|lia].
    - intros (s & Hin & Hnz).
      assert (Hf : In s (map fst cut)).
      { rewrite H1. apply filter_In. split; [apply elem_of_list_In; assumption|lia]. }
      destruct cut as [|[s' part] cut]; [destruct Hf|]. cbn [labelled].
      assert (Hty : sl_type s' = ty).
      { assert (Hin' : In s' (List.filter (fun s => negb (sl_len s =? 0)) (h_slices h))) by (rewrite <- H1; left; reflexivity).
        apply filter_In in Hin' as [Hin' _]. apply elem_of_list_In, H4 in Hin'. apply elem_of_list_singleton in Hin'. assumption. }
      rewrite bool_decide_eq_true_2 by assumption. discriminate. }
  rewrite <- Hs. unfold check_hook_accounts, has_transfer_hook_program, hooked in *.
  destruct (m_prog m), (m_hook m) as [[]|], (hooks_for ty hooks); try discriminate Hc;
    (split; [intros [? ?]; congruence|intros Hx; try contradiction; auto]).
Qed.

Definition henv_of (o : op) : option henv :=
  match o with
  | IInitPresale _ _ _ _ _ _ _ _ _ h | IDeposit _ _ _ _ _ _ _ _ h | IWithdraw _ _ _ _ _ _ _ _ h
  | IClaim _ _ _ _ _ _ _ h | IWithdrawRemaining _ _ _ _ _ _ _ h | IUnsold _ _ _ _ _ h
  | ICreatorWithdraw _ _ _ _ h | ICollectFee _ _ _ _ _ _ h => Some h
  | _ => None
  end.

Section WithCrypto2.
Context `{Crypto}.

Lemma transfer_fx_mint w pr src mk dst auth n ok w' l s d a x y f :
  tok_transfer w pr src mk dst auth n ok = Ok (w', l) -> FxTransfer s d a x y f ∈ l -> x = mk.
Proof.
  intros Ht Hin. apply tok_transfer_inv in Ht as (m & t & t' & dl & _ & _ & _ & _ & _ & _ & _ & _ & _ & _ & Hl).
  destruct Hl as [(_ & _ & ->)|(_ & _ & _ & _ & ->)]; apply elem_of_list_singleton in Hin; congruence.
Qed.

Lemma not_event (l : list fx) ev s d a x y f :
  FxTransfer s d a x y f ∈ l ++ [FxEvent ev] -> FxTransfer s d a x y f ∈ l.
Proof. intros Hin. apply elem_of_app in Hin as [Hin|Hin]; [assumption|]. apply elem_of_list_singleton in Hin. discriminate. Qed.

Lemma hook_to w mk v dst pr n b h ty accts hooks rest w1 lx s d a x y f m :
  transfer_from_presale_to_user w mk v dst pr n b (hooks_for ty hooks) (h_ok h) = Ok (w1, lx) ->
  parse_remaining_accounts_for_transfer_hook accts (h_slices h) [ty] = Ok (hooks, rest) ->
  henv_decodes h = true -> FxTransfer s d a x y f ∈ lx -> w_mints w !! x = Some m ->
  exists h', Some h = Some h' /\ (hooked m <-> passes_accounts h').
Proof.
  intros Ht Hp Hd Hin Hm. apply to_user_Ok in Ht as [Ht (m' & Hm' & Hc)].
  rewrite (transfer_fx_mint _ _ _ _ _ _ _ _ _ _ _ _ _ _ _ _ Ht Hin) in Hm.
  assert (m' = m) as -> by congruence. exists h. split; [reflexivity|]. eapply parse_one; eassumption.
Qed.
Lemma hook_from w auth mk src v pr n b h ty accts hooks rest w1 lx s d a x y f m :
  transfer_from_user w auth mk src v pr n b (hooks_for ty hooks) (h_ok h) = Ok (w1, lx) ->
  parse_remaining_accounts_for_transfer_hook accts (h_slices h) [ty] = Ok (hooks, rest) ->
  henv_decodes h = true -> FxTransfer s d a x y f ∈ lx -> w_mints w !! x = Some m ->
  exists h', Some h = Some h' /\ (hooked m <-> passes_accounts h').
Proof.
  intros Ht Hp Hd Hin Hm. apply from_user_Ok in Ht as [Ht (m' & Hm' & Hc)].
  rewrite (transfer_fx_mint _ _ _ _ _ _ _ _ _ _ _ _ _ _ _ _ Ht Hin) in Hm.
  assert (m' = m) as -> by congruence. exists h. split; [reflexivity|]. eapply parse_one; eassumption.
Qed.

Ltac dig Hs := repeat lazymatch type of Hs with
  | rbind _ _ = Ok _ => let u := fresh "u" in let Hu := fresh "Hu" in bi Hs u Hu
  | match ?x with pair _ _ => _ end = Ok _ => destruct x
  | Err _ = Ok _ => discriminate Hs
  | Ok _ = Ok _ => fail
  end.
Ltac no_fx Hin := repeat (apply elem_of_cons in Hin as [Hin|Hin]; [discriminate Hin|]); inversion Hin.

(** Whenever an accepted instruction moves tokens, accounts for a hook were passed if and only if
    the mint moved has a hook program. *)
Theorem C37_hook_accounts_needed w o w' l src dst auth mk n f m :
  step w o = Ok (w', l) -> env_op o = false -> FxTransfer src dst auth mk n f ∈ l ->
  w_mints w !! mk = Some m ->
  exists h, henv_of o = Some h /\ (hooked m <-> passes_accounts h).
Proof.
  intros Hs Ho Hin Hm. destruct o; try discriminate Ho; cbn [step henv_of] in *.
  - unfold initialize_fixed_price_presale_args in Hs. dig Hs. apply Ok_inj in Hs. injection Hs as <- <-. no_fx Hin.
  - unfold close_fixed_price_presale_args in Hs. dig Hs. apply Ok_inj in Hs. injection Hs as <- <-. no_fx Hin.
  - unfold initialize_presale in Hs. bq Hs Hd. apply andb_true_iff in Hd as [_ Hd]. dig Hs.
    destruct (locked_option (ia_locked a)); apply Ok_inj in Hs; injection Hs as <- <-;
      apply not_event in Hin; eapply (hook_from _ _ _ _ _ _ _ _ _ TransferHookBase); try eassumption; cbn; eassumption.
  - unfold create_merkle_root_config in Hs. dig Hs. apply Ok_inj in Hs. injection Hs as <- <-. no_fx Hin.
  - unfold close_merkle_root_config in Hs. dig Hs. apply Ok_inj in Hs. injection Hs as <- <-. no_fx Hin.
  - unfold create_permissionless_escrow, finish_create_escrow in Hs. dig Hs. apply Ok_inj in Hs; injection Hs as <- <-; no_fx Hin.
  - unfold create_permissioned_escrow_with_creator, finish_create_escrow in Hs. dig Hs. apply Ok_inj in Hs; injection Hs as <- <-; no_fx Hin.
  - unfold create_permissioned_escrow_with_merkle_proof, finish_create_escrow in Hs. dig Hs. apply Ok_inj in Hs; injection Hs as <- <-; no_fx Hin.
  - unfold create_operator in Hs. dig Hs. apply Ok_inj in Hs; injection Hs as <- <-; no_fx Hin.
  - unfold revoke_operator in Hs. dig Hs. apply Ok_inj in Hs; injection Hs as <- <-; no_fx Hin.
  - unfold deposit in Hs. bq Hs Hd. apply andb_true_iff in Hd as [_ Hd]. dig Hs.
    apply Ok_inj in Hs; injection Hs as <- <-.
    apply not_event in Hin. eapply (hook_from _ _ _ _ _ _ _ _ _ TransferHookQuote); try eassumption; cbn; eassumption.
  - unfold withdraw in Hs. bq Hs Hd. apply andb_true_iff in Hd as [_ Hd]. dig Hs.
    apply Ok_inj in Hs; injection Hs as <- <-.
    apply not_event in Hin. eapply (hook_to _ _ _ _ _ _ _ _ TransferHookQuote); try eassumption; cbn; eassumption.
  - unfold claim in Hs. bq Hs Hd. dig Hs. apply Ok_inj in Hs; injection Hs as <- <-. apply not_event in Hin.
    match goal with X : (if _ then _ else _) = Ok (_, _, _, _) |- _ => rename X into Hx end.
    destruct (0 <? _) in Hx; [|apply Ok_inj in Hx; injection Hx as <- <- <- <-; no_fx Hin].
    dig Hx. apply Ok_inj in Hx; injection Hx as <- <- <- <-.
    eapply (hook_to _ _ _ _ _ _ _ _ TransferHookBase); try eassumption; cbn; eassumption.
  - unfold withdraw_remaining_quote in Hs. bq Hs Hd. dig Hs. apply Ok_inj in Hs; injection Hs as <- <-. apply not_event in Hin.
    match goal with X : (if _ then _ else _) = Ok (_, _) |- _ => rename X into Hx end.
    destruct (0 <? _) in Hx; [|apply Ok_inj in Hx; injection Hx as <- <-; no_fx Hin].
    eapply (hook_to _ _ _ _ _ _ _ _ TransferHookQuote); try eassumption; cbn; eassumption.
  - unfold perform_unsold_base_token_action in Hs. bq Hs Hd. dig Hs. apply Ok_inj in Hs; injection Hs as <- <-. apply not_event in Hin.
    match goal with X : match uaction_of_u8 _ with _ => _ end = Ok (_, _) |- _ => rename X into Hx end.
    destruct (uaction_of_u8 _) in Hx.
    + dig Hx. eapply (hook_to _ _ _ _ _ _ _ _ TransferHookBase); try eassumption; cbn; eassumption.
    + apply burn_cpi_Ok in Hx. unfold tok_burn in Hx. dig Hx. apply Ok_inj in Hx; injection Hx as <- <-. no_fx Hin.
  - unfold close_escrow in Hs. dig Hs. apply Ok_inj in Hs; injection Hs as <- <-; no_fx Hin.
  - unfold creator_withdraw in Hs. bq Hs Hd. dig Hs. apply Ok_inj in Hs; injection Hs as <- <-. apply not_event in Hin.
    match goal with X : match get_progress _ _ with _ => _ end = Ok _ |- _ => rename X into Hx end.
    destruct (get_progress _ _) eqn:Hpg in *; dig Hx; apply Ok_inj in Hx; injection Hx as <- <- <- <- <- <-.
    + eapply (hook_to _ _ _ _ _ _ _ _ TransferHookQuote); try eassumption; cbn; eassumption.
    + eapply (hook_to _ _ _ _ _ _ _ _ TransferHookBase); try eassumption; cbn; eassumption.
  - unfold refresh_escrow in Hs. dig Hs. apply Ok_inj in Hs; injection Hs as <- <-; no_fx Hin.
  - unfold create_permissioned_server_metadata in Hs. dig Hs. apply Ok_inj in Hs; injection Hs as <- <-; no_fx Hin.
  - unfold close_permissioned_server_metadata in Hs. dig Hs. apply Ok_inj in Hs; injection Hs as <- <-; no_fx Hin.
  - unfold creator_collect_fee in Hs. bq Hs Hd. dig Hs. apply Ok_inj in Hs; injection Hs as <- <-. apply not_event in Hin.
    match goal with X : (if _ then _ else _) = Ok (_, _) |- _ => rename X into Hx end.
    destruct (0 <? _) in Hx; [|apply Ok_inj in Hx; injection Hx as <- <-; no_fx Hin]. dig Hx.
    eapply (hook_to _ _ _ _ _ _ _ _ TransferHookQuote); try eassumption; cbn; eassumption.
Qed.
End WithCrypto2.

(** * The hypotheses are met *)
#[local] Existing Instance toy.

(** A mint with a permanent delegate: its delegate can empty anybody's account, and no presale can
    be created with it. *)
Definition bad_mint : mint := mkMint Token2022 false [] None None (Some oper) false 0 0.
Definition bad_setup : list op := [EClock 1000; ECreateMint bmint bad_mint; ECreateMint qmint (plain SplToken None);
  ECreateToken creator_b bmint creator; ECreateToken alice_b bmint alice; EMintTo bmint creator_b 100000].
Example C36_example :
  ~ harmless bad_mint /\
  ok_step (run genesis bad_setup) (ETransfer creator_b bmint alice_b oper Token2022 60000 true false true) = true /\
  ok_step (run genesis bad_setup) pr_init = false /\ ok_step (run genesis setup) pr_init = true.
Proof.
  split; [intros [Hx|(_ & _ & Hx & _)]; discriminate|]. split; [vm_compute; reflexivity|].
  split; vm_compute; reflexivity.
Qed.

(** Two slices, one empty: the hook accounts are the first two. *)
Example C37_example :
  splits [alice; bob; carol] [mkSlice TransferHookQuote 0; mkSlice TransferHookBase 2]
    [TransferHookBase; TransferHookQuote] (mkParsed (Some [alice; bob]) None) [carol]
    [(mkSlice TransferHookBase 2, [alice; bob])].
Proof.
  constructor; try reflexivity.
  - intros s part Hx. apply elem_of_list_singleton in Hx. injection Hx as -> ->. reflexivity.
  - intros s Hx. apply elem_of_cons in Hx as [->|Hx]; [cbn; right; left|].
    apply elem_of_list_singleton in Hx as ->. cbn. left.
  - cbn. constructor; [intros Hx; inversion Hx|constructor].
  - intros []; reflexivity.
Qed.

(** A base mint with a hook program: creation needs the accounts. *)
Definition hook_setup : list op := [EClock 1000; ECreateMint bmint (mkMint Token2022 false [] None (Some true) None false 0 0);
  ECreateMint qmint (plain SplToken None); ECreateToken creator_b bmint creator; EMintTo bmint creator_b 100000].
Example C37_hook_example :
  ok_step (run genesis hook_setup) pr_init = false /\
  ok_step (run genesis hook_setup) (IInitPresale base1 bmint qmint creator_b creator creator Token2022 SplToken pr_args
    (mkHenv [alice; bob] [mkSlice TransferHookBase 2] true)) = true /\
  ok_step (run genesis setup) (IInitPresale base1 bmint qmint creator_b creator creator Token2022 SplToken pr_args
    (mkHenv [alice; bob] [mkSlice TransferHookBase 2] true)) = false.
Proof. repeat split; vm_compute; reflexivity. Qed.
