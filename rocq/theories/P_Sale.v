(** C102: the program plays by the rules of Sale.v. *)
From Coq Require Import Lia.
From Verif Require Import Base Math State Handlers Token World Instr Exec Spec Tactics Sums Arith
  TokenFacts Inv Acct Funs Steps Init Preserve Reach Did Trans Flow Scenario P_Solvency P_History P_Payout
  P_Arith P_Deposit P_Ledger Sale.

(** * The rules and the state a presale stands for *)

(** The two switches are read from the raw words of the presale as the handlers of
    presale_mode_handler/ read them (Handlers.v). *)
Definition tier_of (r : registry) : tier := mkTier (r_supply r) (r_min_cap r) (r_max_cap r) (r_fee_bps r).
Definition kind_of (p : presale) : kind :=
  match p_mode p with 0 => FixedPrice (p_raw0 p) | 1 => Prorata | _ => FirstCome end.
Definition rules_of (p : presale) : rules :=
  mkRules (kind_of p)
    (((p_mode p =? 0) && (p_raw1 p / 256 mod 256 =? 0)) || ((p_mode p =? 2) && (p_raw0 p mod 256 =? 0)))
    ((p_mode p =? 1) || ((p_mode p =? 0) && (p_raw1 p mod 256 =? 0)))
    (tier_of <$> p_regs p) (p_min_cap p) (p_max_cap p) (p_start p) (p_bps p)
    (Z.max 0 (p_imm_ts p - p_end p)) (p_lock p) (p_vest p).

Definition seat_of (e : escrow) : seat :=
  mkSeat (e_owner e) (Z.to_nat (e_idx e)) (e_cap e) (e_deposit e) (e_fee e) (e_claimed e) (e_withdrawn e =? 1).
Definition seats_of (k : addr) (E : gmap addr escrow) : gmap addr seat :=
  omap (fun e => if decide (e_presale e = k) then Some (seat_of e) else None) E.

Record shows (w : world) (k : addr) (p : presale) (s : sale) : Prop := {
  sh_now : sl_now s = w_now w;
  sh_end : sl_end s = p_end p;
  sh_seats : sl_seats s = seats_of k (w_escrows w);
  sh_took : sl_took s = (p_cwd p =? 1);
  sh_fees : sl_fees s = (p_fee_col p =? 1);
  sh_rest : sl_rest s = (p_unsold_done p =? 1);
  sh_raised : p_deposit p = raised s;
  sh_tier : forall i r, p_regs p !! i = Some r -> r_deposit r = tier_raised s i /\ r_fee r = tier_fees s i
}.

(** * Seats *)

Lemma seats_lookup k E ek :
  seats_of k E !! ek = match E !! ek with
    | Some e => if decide (e_presale e = k) then Some (seat_of e) else None | None => None end.
Proof. unfold seats_of. rewrite lookup_omap. destruct (E !! ek); reflexivity. Qed.
Lemma seats_in k E ek e : E !! ek = Some e -> e_presale e = k -> seats_of k E !! ek = Some (seat_of e).
Proof. intros He Hk. rewrite seats_lookup, He, decide_True by assumption. reflexivity. Qed.
Lemma seats_insert k E ek e : e_presale e = k -> seats_of k (<[ek := e]> E) = <[ek := seat_of e]> (seats_of k E).
Proof. intros Hk. unfold seats_of. apply omap_insert_Some. rewrite decide_True by assumption. reflexivity. Qed.
Lemma seats_delete k E ek : seats_of k (delete ek E) = delete ek (seats_of k E).
Proof. apply omap_delete. Qed.
Lemma seats_same k E E' : (forall ek, seats_of k E' !! ek = seats_of k E !! ek) -> seats_of k E' = seats_of k E.
Proof. apply map_eq. Qed.
Lemma seats_other k E ek e : e_presale e <> k -> (forall e0, E !! ek = Some e0 -> e_presale e0 <> k) ->
  seats_of k (<[ek := e]> E) = seats_of k E.
Proof.
  intros Hk Hold. apply seats_same. intros x. rewrite !seats_lookup. destruct (decide (x = ek)) as [->|Hne].
  - rewrite lookup_insert, decide_False by assumption. destruct (E !! ek) as [e0|] eqn:He; [|reflexivity].
    rewrite decide_False by (apply Hold; reflexivity). reflexivity.
  - rewrite lookup_insert_ne by congruence. reflexivity.
Qed.
Lemma seats_other_delete k E ek e : E !! ek = Some e -> e_presale e <> k -> seats_of k (delete ek E) = seats_of k E.
Proof.
  intros He Hk. rewrite seats_delete. apply delete_notin. rewrite seats_lookup, He, decide_False by assumption. reflexivity.
Qed.

(** * Sums *)

Lemma all_put f a x x' s : sl_seats s !! a = Some x -> all f (put a x' s) = all f s - f x + f x'.
Proof. intros Hx. unfold all. cbn. rewrite (msum_update _ _ _ _ _ Hx). lia. Qed.
Lemma all_new f a x s : sl_seats s !! a = None -> all f (put a x s) = all f s + f x.
Proof. intros Hx. unfold all. cbn. rewrite (msum_insert_new _ _ _ _ Hx). lia. Qed.
Lemma all_leave f a x s n e t b c : sl_seats s !! a = Some x ->
  all f (mkSale n e (delete a (sl_seats s)) (x :: sl_gone s) t b c) = all f s.
Proof. intros Hx. unfold all. cbn. rewrite (msum_delete _ (sl_seats s) a x Hx). lia. Qed.
Lemma all_fields f s n e t b c : all f (mkSale n e (sl_seats s) (sl_gone s) t b c) = all f s.
Proof. reflexivity. Qed.

Lemma over_tiers_of p (f : nat -> tier -> Z) g :
  (forall i r, p_regs p !! i = Some r -> f i (tier_of r) = g r) ->
  over_tiers (rules_of p) f = lsum g (p_regs p).
Proof.
  intros Hf. unfold over_tiers. cbn [rules_of ru_tiers].
  assert (Hg : forall (l : list registry) (h : nat -> tier -> Z),
    (forall i r, l !! i = Some r -> h i (tier_of r) = g r) -> lsum (fun n => n) (imap h (tier_of <$> l)) = lsum g l).
  { induction l as [|r l IH]; intros h Hh; [reflexivity|]. cbn. rewrite (Hh 0%nat r eq_refl). f_equal.
    apply (IH (h ∘ S)). intros i r' Hr. apply (Hh (S i) r' Hr). }
  apply Hg. assumption.
Qed.

(** * The formulas agree *)

Lemma up_ceil a b : 0 < b -> up a b = div_ceil a b.
Proof.
  intros Hb. unfold up, div_ceil. pose proof (Z.div_mod a b ltac:(lia)) as Hd. pose proof (Z.mod_pos_bound a b Hb) as Hm.
  destruct (Z.eqb_spec (a mod b) 0) as [E|E].
  - rewrite E in Hd. symmetry. rewrite Z.add_0_r. apply Z.div_unique with (b - 1); lia.
  - symmetry. apply Z.div_unique with (a mod b - 1); lia.
Qed.


Section Agree.
Context (w : world) (k : addr) (p : presale) (s : sale) (Hc : cfg k p) (Sh : shows w k p s).

Lemma kind_fixed : p_mode p = 0 -> kind_of p = FixedPrice (p_raw0 p).
Proof. intros E. unfold kind_of. rewrite E. reflexivity. Qed.
Lemma kind_prorata : kind_of p = Prorata <-> p_mode p = 1.
Proof.
  unfold kind_of. destruct (c_mode _ _ Hc) as [E|[E|E]]; rewrite E; split; try reflexivity; discriminate.
Qed.
Lemma kind_price x : kind_of p = FixedPrice x -> p_mode p = 0 /\ x = p_raw0 p.
Proof.
  unfold kind_of. destruct (c_mode _ _ Hc) as [E|[E|E]]; rewrite E; try discriminate. intros Hx. injection Hx as <-. auto.
Qed.
Lemma price_same n : price_of (rules_of p) n =
  if p_mode p =? 0 then div_ceil (bought (p_raw0 p) n * p_raw0 p) scale else n.
Proof.
  unfold price_of. cbn [rules_of ru_kind]. unfold kind_of.
  destruct (c_mode _ _ Hc) as [E|[E|E]]; rewrite E; cbn; try reflexivity. apply up_ceil. reflexivity.
Qed.
Lemma tier_lookup i r : p_regs p !! i = Some r -> ru_tiers (rules_of p) !! i = Some (tier_of r).
Proof. intros Hr. cbn. rewrite list_lookup_fmap, Hr. reflexivity. Qed.

Lemma sold_same i r : p_regs p !! i = Some r -> tier_sold (rules_of p) s i (tier_of r) = sold p r.
Proof.
  intros Hr. destruct (sh_tier _ _ _ _ Sh _ _ Hr) as [Hd _]. unfold tier_sold, sold. rewrite <- Hd.
  destruct (r_deposit r =? 0); [reflexivity|]. cbn [rules_of ru_kind]. unfold kind_of.
  destruct (c_mode _ _ Hc) as [E|[E|E]]; rewrite E; cbn; reflexivity.
Qed.
Lemma left_same : left_over (rules_of p) s = unsold p.
Proof.
  unfold left_over, unsold, total_sold. rewrite (c_supply _ _ Hc), <- lsum_sub. apply over_tiers_of.
  intros i r Hr. rewrite (sold_same _ _ Hr). reflexivity.
Qed.
Lemma supply_same : over_tiers (rules_of p) (fun _ t => ti_supply t) = p_supply p.
Proof. rewrite (c_supply _ _ Hc). apply over_tiers_of. reflexivity. Qed.

Lemma open_same : open_for_deposits p (w_now w) <-> is_open (rules_of p) s.
Proof. unfold open_for_deposits, is_open. rewrite (sh_now _ _ _ _ Sh), (sh_end _ _ _ _ Sh). reflexivity. Qed.
Lemma success_same : succeeded p (w_now w) <-> is_success (rules_of p) s.
Proof.
  unfold succeeded, is_success. rewrite (sh_now _ _ _ _ Sh), (sh_end _ _ _ _ Sh), <- (sh_raised _ _ _ _ Sh). reflexivity.
Qed.
Lemma failure_same : failed p (w_now w) <-> is_failure (rules_of p) s.
Proof.
  unfold failed, is_failure. rewrite (sh_now _ _ _ _ Sh), (sh_end _ _ _ _ Sh), <- (sh_raised _ _ _ _ Sh). reflexivity.
Qed.

Lemma surplus_same i r : p_regs p !! i = Some r ->
  tier_surplus (rules_of p) s i = reg_excess p r /\ tier_fee_back (rules_of p) s i = reg_fee_excess p r.
Proof.
  intros Hr. destruct (sh_tier _ _ _ _ Sh _ _ Hr) as [Hd Hf].
  assert (H1 : tier_surplus (rules_of p) s i = reg_excess p r).
  { unfold tier_surplus, surplus, reg_excess, excess. rewrite <- Hd, <- (sh_raised _ _ _ _ Sh). reflexivity. }
  split; [assumption|]. unfold tier_fee_back, reg_fee_excess. rewrite H1, <- Hd, <- Hf. reflexivity.
Qed.
Lemma fees_same : fees_kept (rules_of p) s = fee_income p.
Proof.
  unfold fees_kept, fee_income. apply over_tiers_of. intros i r Hr.
  destruct (surplus_same _ _ Hr) as [_ ->]. destruct (sh_tier _ _ _ _ Sh _ _ Hr) as [_ ->]. reflexivity.
Qed.
Lemma back_same e r : p_regs p !! Z.to_nat (e_idx e) = Some r -> money_back (rules_of p) s (seat_of e) = refundable p r e.
Proof.
  intros Hr. destruct (sh_tier _ _ _ _ Sh _ _ Hr) as [Hd Hf]. destruct (surplus_same _ _ Hr) as [H1 H2].
  unfold money_back, refundable, share_deposit, share_fee. cbn [seat_of sx_tier sx_paid sx_fee].
  rewrite H1, H2, <- Hd, <- Hf, <- (sh_raised _ _ _ _ Sh). reflexivity.
Qed.
Lemma tokens_same e r : p_regs p !! Z.to_nat (e_idx e) = Some r -> p_end p <= w_now w ->
  tokens_by_now (rules_of p) s (seat_of e) (tier_of r) = entitled p r (e_deposit e) (w_now w).
Proof.
  intros Hr Hov. destruct (sh_tier _ _ _ _ Sh _ _ Hr) as [Hd _].
  unfold tokens_by_now, entitled, vest_part, imm_part, at_once. cbn [seat_of sx_tier sx_paid].
  rewrite (sold_same _ _ Hr), <- Hd, (sh_now _ _ _ _ Sh), (sh_end _ _ _ _ Sh). cbn [rules_of ru_wait ru_bps].
  f_equal.
  - replace (p_end p + Z.max 0 (p_imm_ts p - p_end p) <=? w_now w) with (p_imm_ts p <=? w_now w); [reflexivity|].
    pose proof (c_time _ _ Hc). destruct (c_imm_end _ _ Hc); lia.
  - f_equal. f_equal. unfold released, vested_by. rewrite (sh_now _ _ _ _ Sh), (sh_end _ _ _ _ Sh).
    cbn [rules_of ru_lock ru_vest]. pose proof (c_time _ _ Hc).
    destruct (c_vs _ _ Hc) as [[-> _]|(-> & _ & -> & -> & _)].
    + destruct (Z.ltb_spec (w_now w) (p_end p + p_lock p)), (Z.ltb_spec (w_now w - (p_end p + p_lock p)) 0); try lia; reflexivity.
    + replace (w_now w - (p_end p + 0) <? 0) with false by lia. replace (w_now w <? 0) with false by lia. reflexivity.
Qed.
Lemma full_same e r : p_regs p !! Z.to_nat (e_idx e) = Some r ->
  tokens_in_full (rules_of p) s (seat_of e) (tier_of r) = final p r (e_deposit e).
Proof.
  intros Hr. destruct (sh_tier _ _ _ _ Sh _ _ Hr) as [Hd _].
  unfold tokens_in_full, final, vest_part, imm_part, at_once. cbn [seat_of sx_tier sx_paid].
  rewrite (sold_same _ _ Hr), <- Hd. reflexivity.
Qed.
End Agree.

(** The rules of a presale depend on its terms and on the time from its end to the first release. *)
Lemma rules_same p p' :
  terms_of p' = terms_of p -> Z.max 0 (p_imm_ts p' - p_end p') = Z.max 0 (p_imm_ts p - p_end p) ->
  rules_of p' = rules_of p.
Proof.
  intros Ht Hw. unfold terms_of in Ht.
  injection Ht as T1 T2 T3 T4 T5 T6 T7 T8 T9 T10 T11 T12 T13 T14 T15 T16 T17 T18 T19 T20 T21 T22 T23 T24.
  unfold rules_of, kind_of. rewrite T9, T11, T12, T13, T16, T17, T18, T21, T22, Hw. f_equal.
  assert (Hm : forall l, tier_of <$> l =
    map (fun x => match x with (a, b, c, d) => mkTier a b c d end)
      (map (fun r => (r_supply r, r_min_cap r, r_max_cap r, r_fee_bps r)) l)).
  { intros l. rewrite map_map. reflexivity. }
  rewrite !Hm, T24. reflexivity.
Qed.
Lemma rules_kept now p p' : moves now p p' -> rules_of p' = rules_of p.
Proof.
  intros Hm. apply rules_same; [apply (mv_terms _ _ _ Hm)|].
  destruct (mv_timing _ _ _ Hm) as [Ht|(_ & _ & _ & Ht)]; unfold timing_of, early_timing in Ht.
  - injection Ht as E1 E2 _ _. rewrite E1, E2. reflexivity.
  - injection Ht as E1 E2 _ _. rewrite E1, E2. lia.
Qed.

(** * Money *)

Definition amount (c : flow_kind) (m : move) : Z :=
  match c, m with
  | KDeposit, PayIn _ n f => n + f
  | KBack, PayOut _ n | KRefund, Refund _ n | KClaim, Take _ n | KRaise, Raise n | KReturned, Return n
  | KFees, Fees n | KUnsold, Rest n => n
  | _, _ => 0
  end.

(** The move that an operation is for the presale [k]; calls that concern another one are none. *)
Definition stands_for (k : addr) (o : op) (ms : list move) : Prop :=
  let on k0 (P : Prop) := if decide (k0 = k) then P else ms = [] in
  match o with
  | IEscrowPermissionless k0 owner _ => on k0 (exists n, ms = [Join (PEscrow k owner 0) owner 0 n])
  | IEscrowCreator k0 owner _ _ _ i _ | IEscrowMerkle k0 owner _ _ _ i _ =>
      on k0 (exists n, ms = [Join (PEscrow k owner i) owner (Z.to_nat i) n])
  | IDeposit k0 _ _ ek _ _ _ _ _ => on k0 (exists n f, ms = [PayIn ek n f])
  | IWithdraw k0 _ _ ek _ _ _ _ _ => on k0 (exists n, ms = [PayOut ek n])
  | IWithdrawRemaining k0 _ _ ek _ _ _ _ => on k0 (exists n, ms = [Refund ek n])
  | IClaim k0 _ _ ek _ _ _ _ => on k0 (exists n, ms = [Take ek n])
  | ICloseEscrow k0 ek _ _ => on k0 (ms = [Leave ek])
  | ICreatorWithdraw k0 _ _ _ _ => on k0 (exists n, ms = [Raise n] \/ ms = [Return n])
  | ICollectFee k0 _ _ _ _ _ _ => on k0 (exists n, ms = [Fees n])
  | IUnsold k0 _ _ _ _ _ => on k0 (exists n, ms = [Rest n])
  | IRefresh _ _ | IInitPresale _ _ _ _ _ _ _ _ _ _ => ms = []
  | _ => ms = [] \/ exists t, ms = [Time t]
  end.

Definition follows (k : addr) (p : presale) (s : sale) (o : op) (l : list fx) (w' : world) (p' : presale) : Prop :=
  exists ms s', plays (rules_of p) s ms s' /\ shows w' k p' s' /\
    stands_for k o ms /\ forall c, c <> KFunding -> flow k c o l = lsum (amount c) ms.

Lemma one_move R s m s' : plays1 R s m s' -> plays R s [m] s'.
Proof. intros Hm. apply (plays_snoc R s [] s m s'); [constructor|assumption]. Qed.

Lemma stays w w' k p s o l :
  shows w k p s -> w_now w' = w_now w -> seats_of k (w_escrows w') = seats_of k (w_escrows w) ->
  (forall c, c <> KFunding -> flow k c o l = 0) -> stands_for k o [] -> follows k p s o l w' p.
Proof.
  intros [] Hn Hs Hf Ho. exists [], s. split; [constructor|]. split; [constructor; (assumption || congruence)|]. split; [exact Ho|].
  intros c Hc. rewrite Hf by assumption. reflexivity.
Qed.

(** Sums over a tier when one seat changes. *)
Lemma tier_put f i a x x' s : sl_seats s !! a = Some x -> sx_tier x' = sx_tier x ->
  all (in_tier i f) (put a x' s) = all (in_tier i f) s + (if Nat.eqb (sx_tier x) i then f x' - f x else 0).
Proof. intros Hx Ht. rewrite (all_put _ _ _ _ _ Hx). unfold in_tier. rewrite Ht. destruct (Nat.eqb _ _); lia. Qed.

(** Only fields that the totals do not use have changed. *)
Lemma totals_put s a x x' : sl_seats s !! a = Some x -> sx_tier x' = sx_tier x -> sx_paid x' = sx_paid x ->
  sx_fee x' = sx_fee x -> raised (put a x' s) = raised s /\
  (forall i, tier_raised (put a x' s) i = tier_raised s i) /\ (forall i, tier_fees (put a x' s) i = tier_fees s i).
Proof.
  intros Hx Ht Hp Hf. unfold raised, tier_raised, tier_fees. rewrite (all_put _ _ _ _ _ Hx). split; [lia|].
  split; intros i; rewrite (tier_put _ _ _ _ _ _ Hx Ht); destruct (Nat.eqb _ _); lia.
Qed.

Lemma regs_set p idx r r' i x :
  p_regs p !! Z.to_nat idx = Some r -> <[Z.to_nat idx := r']> (p_regs p) !! i = Some x ->
  (i = Z.to_nat idx /\ x = r') \/ (i <> Z.to_nat idx /\ p_regs p !! i = Some x).
Proof.
  intros Hr Hx. destruct (decide (i = Z.to_nat idx)) as [->|Hne].
  - left. rewrite list_lookup_insert in Hx by (eapply lookup_lt_Some; eassumption). injection Hx as <-. auto.
  - right. rewrite list_lookup_insert_ne in Hx by congruence. auto.
Qed.
(** A registry whose deposits and fees did not change. *)
Lemma tiers_kept p idx r r' s s' :
  p_regs p !! Z.to_nat idx = Some r -> r_deposit r' = r_deposit r -> r_fee r' = r_fee r ->
  (forall i, tier_raised s' i = tier_raised s i) -> (forall i, tier_fees s' i = tier_fees s i) ->
  (forall i x, p_regs p !! i = Some x -> r_deposit x = tier_raised s i /\ r_fee x = tier_fees s i) ->
  forall i x, <[Z.to_nat idx := r']> (p_regs p) !! i = Some x -> r_deposit x = tier_raised s' i /\ r_fee x = tier_fees s' i.
Proof.
  intros Hr Hd Hf H1 H2 Hall i x Hx. rewrite H1, H2.
  destruct (regs_set _ _ _ _ _ _ Hr Hx) as [[-> ->]|[_ Hx']]; [|auto]. rewrite Hd, Hf. auto.
Qed.

(** One seat changes by [n] and [f], and so does its registry. *)
Lemma raised_put s a x x' n : sl_seats s !! a = Some x -> sx_paid x' = sx_paid x + n ->
  raised (put a x' s) = raised s + n.
Proof. intros Hx Hn. unfold raised. rewrite (all_put _ _ _ _ _ Hx). lia. Qed.
Lemma tiers_put p idx r r' s a x x' n f :
  p_regs p !! Z.to_nat idx = Some r -> r_deposit r' = r_deposit r + n -> r_fee r' = r_fee r + f ->
  sl_seats s !! a = Some x -> sx_tier x = Z.to_nat idx -> sx_tier x' = sx_tier x ->
  sx_paid x' = sx_paid x + n -> sx_fee x' = sx_fee x + f ->
  (forall i y, p_regs p !! i = Some y -> r_deposit y = tier_raised s i /\ r_fee y = tier_fees s i) ->
  forall i y, <[Z.to_nat idx := r']> (p_regs p) !! i = Some y ->
    r_deposit y = tier_raised (put a x' s) i /\ r_fee y = tier_fees (put a x' s) i.
Proof.
  intros Hr Hd Hf Hx Ht Ht' Hn Hff Hall i y Hy. unfold tier_raised, tier_fees.
  rewrite !(tier_put _ _ _ _ _ _ Hx Ht'), Ht.
  destruct (regs_set _ _ _ _ _ _ Hr Hy) as [[-> ->]|[Hne Hy']].
  - rewrite Nat.eqb_refl. destruct (Hall _ _ Hr) as [H1 H2]. unfold tier_raised, tier_fees in *. lia.
  - rewrite (proj2 (Nat.eqb_neq _ _)) by congruence. destruct (Hall _ _ Hy') as [H1 H2]. unfold tier_raised, tier_fees in *. lia.
Qed.

Lemma early_same p : ends_early p <-> ru_early (rules_of p) = true.
Proof.
  unfold ends_early. cbn [rules_of ru_early]. rewrite orb_true_iff, !andb_true_iff, !Z.eqb_eq. reflexivity.
Qed.
Lemma exit_same p : withdrawals_on p <-> ru_exit (rules_of p) = true.
Proof.
  unfold withdrawals_on. cbn [rules_of ru_exit]. rewrite orb_true_iff, !andb_true_iff, !Z.eqb_eq. reflexivity.
Qed.

Lemma shows_put w w' k p p' s a e' :
  shows w k p s -> w_now w' = w_now w -> w_escrows w' = <[a := e']> (w_escrows w) -> e_presale e' = k ->
  p_end p' = p_end p -> p_cwd p' = p_cwd p -> p_fee_col p' = p_fee_col p -> p_unsold_done p' = p_unsold_done p ->
  p_deposit p' = raised (put a (seat_of e') s) ->
  (forall i r, p_regs p' !! i = Some r -> r_deposit r = tier_raised (put a (seat_of e') s) i /\
    r_fee r = tier_fees (put a (seat_of e') s) i) ->
  shows w' k p' (put a (seat_of e') s).
Proof.
  intros [] Hn He Hk E1 E2 E3 E4 Hr Ht. constructor; try assumption; cbn [put sl_now sl_end sl_seats sl_took sl_fees sl_rest];
    try congruence. rewrite He, seats_insert by assumption. congruence.
Qed.

Section WithCrypto.
Context `{Crypto}.

Ltac mine := cbn; rewrite decide_True by reflexivity; eauto.
Ltac other := cbn; rewrite decide_False by congruence; reflexivity.

Lemma follow_step w o w' l k p s :
  reachable w -> step w o = Ok (w', l) -> w_presales w !! k = Some p -> shows w k p s ->
  exists p', w_presales w' !! k = Some p' /\ follows k p s o l w' p'.
Proof.
  intros Hw Hs Hp Sh. pose proof (reachable_inv _ Hw) as Hi. pose proof (step_does _ _ _ _ Hi Hs) as Hd.
  destruct (does_now _ _ _ _ Hd) as [Hle Hnow].
  pose proof (i_presales _ Hi _ _ Hp) as Hok. pose proof (q_cfg _ _ _ Hok) as Hc.
  pose proof (q_acct _ _ _ Hok) as Ha.
  assert (Hseat : forall ek e, w_escrows w !! ek = Some e -> e_presale e = k -> sl_seats s !! ek = Some (seat_of e)).
  { intros ek e He Hk. rewrite (sh_seats _ _ _ _ Sh). apply seats_in; assumption. }
  destruct Hd as
    [Henv Hsp Hnow2|Haux _ Hpr Hesc _ _ _
    |base bm0 qm0 pt cr pay bp qp a h0 k0 p0 bm qm gross w1 lx Ho D|k0 owner idx cap p0 r Ho D
    |k0 qv qm ek0 pt payer pr mx h0 p0 p2 e r m am fee gross w1 lx Ho D
    |k0 qv qm ek0 ot owner pr mx h0 p0 e r m am w1 lx Ho D
    |k0 qv qm ek0 ot owner pr h0 p0 e r m w1 lx Ho D|k0 bv bm ek0 ot owner pr h0 p0 e r m w1 lx Ho D
    |k0 ek0 p0 e e1 r Ho D|k0 ek0 owner rr p0 e r Ho D|k0 ot owner pr h0 p0 m w1 lx Ho D
    |k0 qv qm rcv owner pr h0 p0 m w1 lx Ho D
    |k0 bv bm ct pr h0 p0 m w1 lx Ho D].
  - (* other programs *) exists p. rewrite (sp_presales _ _ Hsp). split; [assumption|].
    exists [Time (w_now w')]. eexists. split; [apply one_move, pl_time; rewrite (sh_now _ _ _ _ Sh); assumption|].
    split; [|split; [destruct o; try discriminate; right; eauto|]].
    + destruct Sh. constructor; cbn; try assumption; [reflexivity|]. rewrite (sp_escrows _ _ Hsp). assumption.
    + intros c _. destruct o; try discriminate; destruct c; reflexivity.
  - (* helper accounts *) exists p. rewrite Hpr. split; [assumption|].
    apply (stays w); [assumption|apply Hnow; destruct o; try discriminate; reflexivity|congruence| |destruct o; try discriminate; left; reflexivity].
    intros c _. destruct o; try discriminate; destruct c; reflexivity.
  - (* another presale is created *) subst o.
    assert (k0 <> k) by (destruct D as [_ (Hn & _) _ _ _ _ _ _ _]; congruence).
    destruct D. rest_of di_transfer. exists p. subst w'. cbn. rewrite lookup_insert_ne by congruence. rewrite Rp.
    split; [assumption|]. apply (stays w); [assumption|exact Rnow|cbn; rewrite Re; reflexivity| |reflexivity].
    intros c Hcf. destruct c; try reflexivity. contradiction.
  - (* join *) assert (Hz : forall c, flow k c o l = 0) by (intros c; destruct o; try discriminate; destruct c; reflexivity).
    assert (Hn : w_now w' = w_now w) by (apply Hnow; destruct o; try discriminate; reflexivity).
    destruct D. subst w'. cbn [w_presales upd_presale upd_escrow put_presales put_escrows] in *.
    destruct (decide (k0 = k)) as [->|Hne].
    + assert (p0 = p) as -> by congruence. eexists. split; [cbn; apply lookup_insert|].
      assert (Hnew : sl_seats s !! PEscrow k owner idx = None).
      { rewrite (sh_seats _ _ _ _ Sh), seats_lookup, dc_new. reflexivity. }
      exists [Join (PEscrow k owner idx) owner (Z.to_nat idx) cap], (put (PEscrow k owner idx) (mkSeat owner (Z.to_nat idx) cap 0 0 0 false) s).
      split; [|split; [|split; [destruct o; try discriminate; injection Ho as <- <- <-; mine|]]].
      * apply one_move. eapply pl_join; [apply (open_same w k p s Sh); assumption|apply tier_lookup; eassumption|assumption|..].
        -- intros b x Hb Ho2 Ht. rewrite (sh_seats _ _ _ _ Sh), seats_lookup in Hb.
           destruct (w_escrows w !! b) as [e|] eqn:He; [|discriminate]. destruct (decide (e_presale e = k)) as [Hk|]; [|discriminate].
           injection Hb as <-. cbn in Ho2, Ht. pose proof (a_esc _ _ _ _ Ha _ _ He Hk) as Hes.
           pose proof (s_key _ _ _ _ _ Hes) as Hkey. pose proof (s_idx _ _ _ _ _ Hes).
           assert (e_idx e = idx) by lia. congruence.
        -- apply dc_cap.
        -- cbn. apply dc_cap.
      * eapply (shows_put w _ k p _ s (PEscrow k owner idx) (esc_init k owner (w_now w) idx cap)); try reflexivity; [exact Sh|..].
        -- change (p_deposit p = raised (put (PEscrow k owner idx) (mkSeat owner (Z.to_nat idx) cap 0 0 0 false) s)).
           rewrite (sh_raised _ _ _ _ Sh). unfold raised. rewrite all_new by assumption. cbn. lia.
        -- eapply (tiers_kept p idx r); [eassumption|reflexivity|reflexivity|..|exact (sh_tier _ _ _ _ Sh)];
             intros i; unfold tier_raised, tier_fees; rewrite all_new by assumption; unfold in_tier; cbn; destruct (Nat.eqb _ _); lia.
      * intros c _. rewrite Hz. destruct c; reflexivity.
    + exists p. split; [cbn; rewrite lookup_insert_ne by congruence; assumption|].
      apply (stays w); [assumption|assumption| |intros; apply Hz|destruct o; try discriminate; injection Ho as <- <- <-; other]. cbn. apply seats_other; [exact Hne|]. congruence.
  - (* deposit *) subst o. assert (Hn : w_now w' = w_now w) by (apply Hnow; reflexivity). clear Hle Hnow.
    destruct (decide (k0 = k)) as [->|Hne].
    + destruct D. assert (p0 = p) as -> by congruence. rest_of dd_transfer. destruct dd_mint as [Hqm Hm]. subst qv qm.
      pose proof (Hseat _ _ dd_escrow dd_link) as Hx.
      pose proof (payer_not_vault _ _ _ _ _ _ _ _ _ _ Hi dd_presale dd_signed dd_transfer) as Hpt.
      pose proof (deposit_received _ _ _ _ _ _ _ _ _ _ m
        (EvtDeposit k ek0 am (e_deposit e + am) (p_deposit p + am) payer fee) dd_transfer Hpt Hm) as Hrec.
      rewrite <- dd_fx in Hrec.
      destruct (s_idx _ _ _ _ _ (at_esc _ _ _ _ _ _ dd_at)) as [I0 I1].
      assert (Hb : 0 <= r_fee_bps r <= 5000).
      { destruct (c_regs _ _ Hc _ _ dd_reg) as [Hz|[Hz _]]; [lia|]. rewrite Z2Nat.id in Hz by lia. lia. }
      assert (Hfee : fee = fee_on (tier_of r) am).
      { unfold fee_on. cbn. rewrite up_ceil by lia. lia. }
      destruct (C39_deposit_exact _ _ _ _ _ _ _ _ _ _ _ _ Hw Hs)
        as (p3 & e3 & r3 & a1 & f1 & P3 & Q3 & _ & R3 & Htk & _ & _ & _ & _ & Q4 & _).
      assert (p3 = p) as -> by congruence. assert (e3 = e) as -> by congruence. assert (r3 = r) as -> by congruence.
      assert (a1 = am).
      { subst w'. cbn in Q4. rewrite lookup_insert in Q4. apply (f_equal (fun x => from_option e_deposit 0 x)) in Q4. cbn in Q4. lia. }
      exists p2. split; [subst w'; cbn; apply lookup_insert|].
      exists [PayIn ek0 am fee]. eexists. split; [|split; [|split; [mine|]]].
      * apply one_move. rewrite Hfee.
        eapply (pl_pay _ _ ek0 (seat_of e) (tier_of r)); [apply (open_same w k p s Sh); assumption|assumption
          |apply tier_lookup; assumption|lia|..].
        -- destruct (Z.eqb_spec (p_mode p) 0) as [E|E].
           ++ destruct (dd_price E) as (x & _ & Hx2). exists x. rewrite (price_same k p Hc), E. exact Hx2.
           ++ exists am. rewrite (price_same k p Hc). rewrite (proj2 (Z.eqb_neq _ _)) by assumption. reflexivity.
        -- cbn. lia.
        -- intros Hk2. rewrite <- (sh_raised _ _ _ _ Sh). cbn. apply dd_cap. intros E. apply Hk2. apply (kind_prorata k p Hc). exact E.
        -- intros price Hk2. change (sx_tier (seat_of e)) with (Z.to_nat (e_idx e)). rewrite (sold_same w k p s Hc Sh (Z.to_nat (e_idx e)) r dd_reg).
           apply (kind_price k p Hc) in Hk2 as [E ->]. cbn [tier_of ti_supply].
           assert (a1 <= room p r e) as Hroom.
           { unfold takes_amount in Htk. rewrite E in Htk. cbn [Z.eqb] in Htk. lia. }
           unfold room in Hroom. rewrite E in Hroom. cbn [Z.eqb] in Hroom. unfold cost in Hroom.
           change (am <= ((r_supply r - sold p r) * p_raw0 p + scale - 1) / scale). lia.
      * assert (Hput : shows w' k (deposited p e r am fee) (put ek0 (seat_of (esc_deposited e am fee)) s)).
        { apply (shows_put w _ k p); try reflexivity; try assumption; [subst w'; cbn; rewrite Re; reflexivity|..].
          - rewrite (raised_put s ek0 (seat_of e) _ am) by (assumption || reflexivity). rewrite <- (sh_raised _ _ _ _ Sh). reflexivity.
          - eapply (tiers_put p (e_idx e) r _ s ek0 (seat_of e) _ am fee); try eassumption; try reflexivity.
            exact (sh_tier _ _ _ _ Sh). }
        change (paying am (fee_on (tier_of r) am) (seat_of e)) with (seat_of (esc_deposited e am (fee_on (tier_of r) am))).
        rewrite <- Hfee. cbv zeta. rewrite <- (sh_raised _ _ _ _ Sh).
        destruct dd_end as [(E1 & E2 & ->)|(E1 & ->)].
        -- rewrite (proj1 (early_same p) E1). cbn [rules_of ru_max]. rewrite (proj2 (Z.eqb_eq _ _) E2). cbn [andb].
           destruct Hput. constructor; try assumption. cbn. apply (sh_now _ _ _ _ Sh).
        -- destruct (ru_early (rules_of p) && (p_deposit p + am =? ru_max (rules_of p))) eqn:E3; [|exact Hput].
           exfalso. apply E1. apply andb_true_iff in E3 as [E3 E4]. split; [apply early_same; assumption|apply Z.eqb_eq; exact E4].
      * intros c _. destruct c; try reflexivity. cbn. rewrite decide_True by reflexivity. rewrite Hrec. lia.
    + destruct D. rest_of dd_transfer. exists p. split; [subst w'; cbn; rewrite lookup_insert_ne by congruence; congruence|].
      apply (stays w); [assumption|assumption| | |other].
      * subst w'. cbn. rewrite Re. apply seats_other; [cbn; congruence|congruence].
      * intros c _. destruct c; try reflexivity. cbn. rewrite decide_False by congruence. reflexivity.
  - (* withdrawal *) subst o. assert (Hn : w_now w' = w_now w) by (apply Hnow; reflexivity). clear Hle Hnow.
    destruct (decide (k0 = k)) as [->|Hne].
    + destruct D. assert (p0 = p) as -> by congruence. rest_of dw_transfer. destruct dw_mint as [Hqm Hm]. subst qv qm.
      pose proof (Hseat _ _ dw_escrow dw_link) as Hx.
      pose proof (transfer_sent _ _ _ _ _ _ _ _ _ _ (EvtWithdraw k ek0 (am - tok_fee m am)
        (e_deposit e - am) (p_deposit p - am) owner) dw_transfer) as Hsent. rewrite <- dw_fx in Hsent.
      exists (withdrawn p e r am). split; [subst w'; cbn; apply lookup_insert|].
      exists [PayOut ek0 am], (put ek0 (seat_of (set_e_deposit (e_deposit e - am) e)) s). split; [|split; [|split; [mine|]]].
      * apply one_move.
        replace (seat_of (set_e_deposit (e_deposit e - am) e)) with (paying (- am) 0 (seat_of e))
          by (unfold paying, seat_of; cbn; f_equal; lia).
        eapply (pl_unpay _ _ ek0 (seat_of e) (tier_of r)); [apply (open_same w k p s Sh); assumption|apply exit_same; assumption
          |assumption|apply tier_lookup; assumption|lia|..]; cbn [seat_of sx_paid tier_of ti_min].
        -- destruct (Z.eqb_spec mx (e_deposit e)) as [E|E]; [left; rewrite <- E; apply dw_exact; auto|right].
           exists mx. split; [|assumption]. rewrite (price_same k p Hc).
           destruct (Z.eqb_spec (p_mode p) 0) as [E0|E0]; [apply dw_price; assumption|].
           apply dw_exact. left. destruct dw_mode as [?|[? _]]; [assumption|contradiction].
        -- destruct dw_limit; [left; lia|right; lia].
      * apply (shows_put w _ k p); try reflexivity; try assumption; [subst w'; cbn; rewrite Re; reflexivity|..].
        -- rewrite (raised_put s ek0 (seat_of e) _ (- am)) by (assumption || reflexivity). rewrite <- (sh_raised _ _ _ _ Sh). reflexivity.
        -- eapply (tiers_put p (e_idx e) r _ s ek0 (seat_of e) _ (- am) 0); try eassumption; try reflexivity; cbn; try lia.
           exact (sh_tier _ _ _ _ Sh).
      * intros c _. destruct c; try reflexivity. cbn. rewrite decide_True by reflexivity. rewrite Hsent. lia.
    + destruct D. rest_of dw_transfer. exists p. split; [subst w'; cbn; rewrite lookup_insert_ne by congruence; congruence|].
      apply (stays w); [assumption|assumption| | |other].
      * subst w'. cbn. rewrite Re. apply seats_other; [cbn; congruence|congruence].
      * intros c _. destruct c; try reflexivity. cbn. rewrite decide_False by congruence. reflexivity.
  - (* refund *) subst o. assert (Hn : w_now w' = w_now w) by (apply Hnow; reflexivity). clear Hle Hnow.
    destruct (decide (k0 = k)) as [->|Hne].
    + destruct D. assert (p0 = p) as -> by congruence. rest_of dr_paid. subst qv.
      pose proof (Hseat _ _ dr_escrow dr_link) as Hx.
      pose proof (paid_sent _ _ _ _ _ _ _ _ _ (EvtWithdrawRemainingQuote k ek0 owner
        (refundable p r e - tok_fee m (refundable p r e)) (p_refunded p + refundable p r e)) dr_paid ltac:(lia)) as Hsent.
      rewrite <- dr_fx in Hsent. pose proof (back_same w k p s Sh e r dr_reg) as Hback.
      eexists. split; [subst w'; cbn; apply lookup_insert|].
      exists [Refund ek0 (refundable p r e)], (put ek0 (seat_of (set_e_withdrawn 1 e)) s).
      split; [|split; [|split; [mine|]]].
      * apply one_move. rewrite <- Hback.
        apply (pl_refund _ _ ek0 (seat_of e)); [assumption|cbn; rewrite dr_once; reflexivity|].
        destruct dr_when as [Hf|[Hs2 Hm1]]; [left; apply (failure_same w k p s Sh); assumption|right].
        split; [apply (success_same w k p s Sh); assumption|apply (kind_prorata k p Hc); assumption].
      * apply (shows_put w _ k p); try reflexivity; try assumption; [subst w'; cbn; rewrite Re; reflexivity|..].
        -- rewrite (raised_put s ek0 (seat_of e) _ 0) by (assumption || (cbn; lia)). rewrite <- (sh_raised _ _ _ _ Sh). cbn. lia.
        -- eapply (tiers_put p (e_idx e) r _ s ek0 (seat_of e) _ 0 0); try eassumption; try reflexivity; cbn; try lia.
           exact (sh_tier _ _ _ _ Sh).
      * intros c _. destruct c; try reflexivity. cbn. rewrite decide_True by reflexivity. rewrite Hsent. lia.
    + destruct D. rest_of dr_paid. exists p. split; [subst w'; cbn; rewrite lookup_insert_ne by congruence; congruence|].
      apply (stays w); [assumption|assumption| | |other].
      * subst w'. cbn. rewrite Re. apply seats_other; [cbn; congruence|congruence].
      * intros c _. destruct c; try reflexivity. cbn. rewrite decide_False by congruence. reflexivity.
  - (* claim *) subst o. assert (Hn : w_now w' = w_now w) by (apply Hnow; reflexivity). clear Hle Hnow.
    destruct (decide (k0 = k)) as [->|Hne].
    + destruct D. assert (p0 = p) as -> by congruence. rest_of dm_paid. subst bv.
      pose proof (Hseat _ _ dm_escrow dm_link) as Hx.
      pose proof (paid_sent _ _ _ _ _ _ _ _ _ (EvtClaim k ek0
        (due p r e (w_now w) - tok_fee m (due p r e (w_now w)))
        (e_claimed e + due p r e (w_now w)) (p_claimed p + due p r e (w_now w)) owner) dm_paid ltac:(lia)) as Hsent.
      rewrite <- dm_fx in Hsent. destruct dm_world as (p2 & e2 & Hw' & He2 & Hp2).
      pose proof (tokens_same w k p s Hc Sh e r dm_reg (proj1 dm_when)) as Htok.
      assert (Hdue : tokens_by_now (rules_of p) s (seat_of e) (tier_of r) - sx_got (seat_of e) = due p r e (w_now w))
        by (unfold due; rewrite Htok; reflexivity).
      exists p2. split; [subst w'; cbn; apply lookup_insert|].
      exists [Take ek0 (due p r e (w_now w))], (put ek0 (seat_of e2) s). split; [|split; [|split; [mine|]]].
      * apply one_move. replace (seat_of e2) with (taking (due p r e (w_now w)) (seat_of e)) by (rewrite He2; reflexivity).
        rewrite <- Hdue. apply pl_take; [assumption|apply tier_lookup; assumption|apply (success_same w k p s Sh); assumption].
      * assert (Hs2 : sx_tier (seat_of e2) = sx_tier (seat_of e) /\ sx_paid (seat_of e2) = sx_paid (seat_of e) + 0 /\
          sx_fee (seat_of e2) = sx_fee (seat_of e) + 0) by (rewrite He2; cbn; lia).
        destruct Hs2 as (Hs1 & Hs2 & Hs3).
        apply (shows_put w _ k p); try assumption; try (rewrite Hp2; reflexivity); [subst w'; cbn; rewrite Re; reflexivity|..].
        -- rewrite He2. exact dm_link.
        -- rewrite (raised_put s ek0 (seat_of e) _ 0) by assumption. rewrite <- (sh_raised _ _ _ _ Sh), Hp2. cbn. lia.
        -- rewrite Hp2. eapply (tiers_put p (e_idx e) r _ s ek0 (seat_of e) _ 0 0); try eassumption; try reflexivity; cbn; try lia.
           exact (sh_tier _ _ _ _ Sh).
      * intros c _. destruct c; try reflexivity. cbn. rewrite decide_True by reflexivity. rewrite Hsent. lia.
    + destruct D. rest_of dm_paid. destruct dm_world as (p2 & e2 & Hw' & He2 & Hp2).
      exists p. split; [subst w'; cbn; rewrite lookup_insert_ne by congruence; congruence|].
      apply (stays w); [assumption|assumption| | |other].
      * subst w'. cbn. rewrite Re. apply seats_other; [rewrite He2; cbn; congruence|congruence].
      * intros c _. destruct c; try reflexivity. cbn. rewrite decide_False by congruence. reflexivity.
  - (* refresh *) subst o. assert (Hn : w_now w' = w_now w) by (apply Hnow; reflexivity). clear Hle Hnow.
    destruct D. exists p. split; [subst w'; exact Hp|].
    apply (stays w); [assumption|assumption| |intros c _; destruct c; reflexivity|reflexivity].
    assert (He1 : e_presale e1 = e_presale e /\ seat_of e1 = seat_of e).
    { destruct df_what as [(_ & _ & ->)|(_ & ->)]; split; reflexivity. }
    destruct He1 as [He1 He2]. subst w'.
    change (seats_of k (<[ek0 := e1]> (w_escrows w)) = seats_of k (w_escrows w)).
    destruct (decide (k0 = k)) as [->|Hne].
    + rewrite seats_insert by congruence. rewrite He2. apply insert_id, seats_in; assumption.
    + apply seats_other; congruence.
  - (* close *) subst o. assert (Hn : w_now w' = w_now w) by (apply Hnow; reflexivity). clear Hle Hnow.
    destruct D. destruct (decide (k0 = k)) as [->|Hne].
    + assert (p0 = p) as -> by congruence. pose proof (Hseat _ _ dx_escrow dx_link) as Hx.
      eexists. split; [subst w'; cbn; apply lookup_insert|].
      exists [Leave ek0]. eexists. split; [|split; [|split; [mine|]]].
      * apply one_move. eapply (pl_leave _ _ ek0 (seat_of e) (tier_of r)); [assumption|apply tier_lookup; assumption|].
        unfold settled_up. rewrite (back_same w k p s Sh e r dx_reg), (full_same w k p s Hc Sh e r dx_reg).
        cbn [seat_of sx_paid sx_fee sx_back sx_got].
        destruct dx_settled as [(S1 & S2 & S3)|[(S1 & S2)|(S1 & S2 & S3)]].
        -- left. split; [apply (open_same w k p s Sh); assumption|auto].
        -- right; left. split; [apply (failure_same w k p s Sh); assumption|]. destruct S2 as [S2|S2]; [left|right]; lia.
        -- right; right. split; [apply (success_same w k p s Sh); assumption|]. split; [assumption|].
           destruct S3 as [S3|S3]; [left; lia|right; assumption].
      * pose proof Sh as Sh'. destruct Sh'. constructor; cbn [sl_now sl_end sl_seats sl_gone sl_took sl_fees sl_rest]; try assumption.
        -- congruence.
        -- subst w'. rewrite sh_seats0. symmetry. apply seats_delete.
        -- unfold raised. rewrite all_leave by assumption. exact sh_raised0.
        -- eapply (tiers_kept p (e_idx e) r); [eassumption|reflexivity|reflexivity|..|exact sh_tier0];
             intros i; unfold tier_raised, tier_fees; apply all_leave; assumption.
      * intros c _. destruct c; reflexivity.
    + exists p. split; [subst w'; cbn; rewrite lookup_insert_ne by congruence; assumption|].
      apply (stays w); [assumption|assumption| |intros c _; destruct c; reflexivity|other].
      subst w'. cbn. eapply seats_other_delete; [eassumption|congruence].
  - (* creator *) subst o. assert (Hn : w_now w' = w_now w) by (apply Hnow; reflexivity). clear Hle Hnow.
    destruct D.
    assert (Rest : w_presales w1 = w_presales w /\ w_escrows w1 = w_escrows w).
    { destruct dcw_what as [(_ & _ & Ht & _)|(_ & _ & Ht & _)]; rest_of Ht; auto. }
    destruct Rest as [Rp Re]. destruct (decide (k0 = k)) as [->|Hne].
    + assert (p0 = p) as -> by congruence.
      assert (Htook : sl_took s = false) by (rewrite (sh_took _ _ _ _ Sh), dcw_once; reflexivity).
      exists (set_p_cwd 1 p). split; [subst w'; cbn; apply lookup_insert|].
      assert (Hsh : shows w' k (set_p_cwd 1 p)
        (mkSale (sl_now s) (sl_end s) (sl_seats s) (sl_gone s) true (sl_fees s) (sl_rest s))).
      { pose proof Sh as Sh'. destruct Sh'. constructor; try assumption; [cbn; congruence|subst w'; change (sl_seats s = seats_of k (w_escrows w1)); rewrite Re; assumption|reflexivity]. }
      destruct dcw_what as [(Hst & _ & Ht & Hl)|(Hst & _ & Ht & Hl)].
      * exists [Raise (raise p)]. eexists. split; [|split; [exact Hsh|split; [mine|]]].
        -- apply one_move. unfold raise. rewrite (sh_raised _ _ _ _ Sh).
           apply pl_raise; [apply (success_same w k p s Sh); assumption|assumption].
        -- intros c _. destruct c; try reflexivity; cbn; rewrite decide_True by reflexivity; rewrite Hl.
           ++ erewrite transfer_sent by eassumption. lia.
           ++ eapply sent_other; [eassumption|discriminate].
      * exists [Return (p_supply p)]. eexists. split; [|split; [exact Hsh|split; [mine|]]].
        -- apply one_move. rewrite <- (supply_same k p Hc).
           apply pl_return; [apply (failure_same w k p s Sh); assumption|assumption].
        -- intros c _. destruct c; try reflexivity; cbn; rewrite decide_True by reflexivity; rewrite Hl.
           ++ eapply sent_other; [eassumption|discriminate].
           ++ erewrite transfer_sent by eassumption. lia.
    + exists p. split; [subst w'; cbn; rewrite lookup_insert_ne by congruence; congruence|].
      apply (stays w); [assumption|assumption|subst w'; cbn; rewrite Re; reflexivity| |other].
      intros c _. destruct c; try reflexivity; cbn; rewrite decide_False by congruence; reflexivity.
  - (* fees *) subst o. assert (Hn : w_now w' = w_now w) by (apply Hnow; reflexivity). clear Hle Hnow.
    destruct D. rest_of dfe_paid. destruct (decide (k0 = k)) as [->|Hne].
    + assert (p0 = p) as -> by congruence. subst qv.
      pose proof (paid_sent _ _ _ _ _ _ _ _ _ (EvtCreatorCollectFee k owner
                                (fee_income p - tok_fee m (fee_income p))) dfe_paid ltac:(lia)) as Hsent.
      rewrite <- dfe_fx in Hsent.
      exists (set_p_fee_col 1 p). split; [subst w'; cbn; apply lookup_insert|].
      exists [Fees (fee_income p)]. eexists. split; [|split; [|split; [mine|]]].
      * apply one_move. rewrite <- (fees_same w k p s Sh).
        apply pl_fees; [apply (success_same w k p s Sh); assumption|]. rewrite (sh_fees _ _ _ _ Sh), dfe_once. reflexivity.
      * pose proof Sh as Sh'. destruct Sh'. constructor; try assumption; [cbn; congruence|subst w'; change (sl_seats s = seats_of k (w_escrows w1)); rewrite Re; assumption|reflexivity].
      * intros c _. destruct c; try reflexivity. cbn. rewrite decide_True by reflexivity. rewrite Hsent. lia.
    + exists p. split; [subst w'; cbn; rewrite lookup_insert_ne by congruence; congruence|].
      apply (stays w); [assumption|assumption|subst w'; cbn; rewrite Re; reflexivity| |other].
      intros c _. destruct c; try reflexivity; cbn; rewrite decide_False by congruence; reflexivity.
  - (* unsold tokens *) subst o. assert (Hn : w_now w' = w_now w) by (apply Hnow; reflexivity). clear Hle Hnow.
    destruct D.
    assert (Rest : w_presales w1 = w_presales w /\ w_escrows w1 = w_escrows w).
    { destruct du_what as [(_ & Ht)|(_ & Ht)]; rest_of Ht; auto. }
    destruct Rest as [Rp Re]. destruct (decide (k0 = k)) as [->|Hne].
    + assert (p0 = p) as -> by congruence. subst bv.
      assert (Hsent : sent_from (PBaseVault k) l = unsold p).
      { rewrite du_fx. destruct du_what as [(_ & Ht)|(_ & Ht)];
          [eapply burn_sent; eassumption|eapply transfer_sent; eassumption]. }
      exists (set_p_unsold_done 1 p). split; [subst w'; cbn; apply lookup_insert|].
      exists [Rest (unsold p)]. eexists. split; [|split; [|split; [mine|]]].
      * apply one_move. pose proof (left_same w k p s Hc Sh) as Hlo. rewrite <- Hlo.
        apply pl_rest; [apply (success_same w k p s Sh); assumption| |lia]. rewrite (sh_rest _ _ _ _ Sh), du_once. reflexivity.
      * pose proof Sh as Sh'. destruct Sh'. constructor; try assumption; [cbn; congruence|subst w'; change (sl_seats s = seats_of k (w_escrows w1)); rewrite Re; assumption|reflexivity].
      * intros c _. destruct c; try reflexivity. cbn. rewrite decide_True by reflexivity. rewrite Hsent. lia.
    + exists p. split; [subst w'; cbn; rewrite lookup_insert_ne by congruence; congruence|].
      apply (stays w); [assumption|assumption|subst w'; cbn; rewrite Re; reflexivity| |other].
      intros c _. destruct c; try reflexivity; cbn; rewrite decide_False by congruence; reflexivity.
Qed.

(** A new presale is the opening of its rules. *)
Lemma opening_step w o w' l k p :
  inv w -> step w o = Ok (w', l) -> w_presales w !! k = None -> w_presales w' !! k = Some p ->
  exists s, opening (rules_of p) s /\ shows w' k p s /\ flow k KFunding o l = p_supply p /\
    forall c, c <> KFunding -> flow k c o l = 0.
Proof.
  intros Hi Hs Hnone Hsome. pose proof (step_does _ _ _ _ Hi Hs) as Hd.
  pose proof (ledger_step w o w' l k (fun _ => 0) Hi Hs) as HL. unfold ledger in HL. rewrite Hnone, Hsome in HL.
  specialize (HL (fun _ => eq_refl)).
  destruct (does_presale _ _ _ _ k Hd) as
    [Hsame|base bm0 qm0 pt cr pay bp qp a h0 p0 bm qm gross w1 lx Ho D _ Hp0|? ? ? ? ? ? D|? ? ? ? ? ? ? ? ? ? ? ? ? ? ? ? ? ? ? D
    |? ? ? ? ? ? ? ? ? ? ? ? ? ? ? ? D|? ? ? ? ? ? ? ? ? ? ? ? ? ? D|? ? ? ? ? ? ? ? ? ? ? ? ? ? D|? ? ? ? ? ? ? D
    |? ? ? ? ? ? ? ? ? D|? ? ? ? ? ? ? ? ? ? ? D|? ? ? ? ? ? ? ? ? ? D];
    try (destruct D; congruence); [congruence|].
  assert (p0 = p) as -> by congruence. subst o.
  exists (mkSale (w_now w') (p_end p) ∅ [] false false false).
  destruct D. pose proof (newly_zero _ _ _ _ _ _ _ _ _ _ di_presale) as Hz.
  rest_of di_transfer. pose proof di_presale as Hn. destruct Hn.
  assert (Hw : w_now w' = w_now w) by (subst w'; exact Rnow).
  split; [|split; [|split]].
  - unfold opening. cbn. pose proof (c_caps _ _ n_cfg). repeat (split; [reflexivity|]). rewrite Hw. lia.
  - constructor; cbn [sl_now sl_end sl_seats sl_gone sl_took sl_fees sl_rest]; try reflexivity.
    + symmetry. apply map_eq. intros ek. rewrite seats_lookup, lookup_empty.
      assert (Hesc : w_escrows w' = w_escrows w) by (subst w'; exact Re). rewrite Hesc.
      destruct (w_escrows w !! ek) as [e|] eqn:He; [|reflexivity]. apply decide_False. intros Hk.
      destruct (i_escrows _ Hi _ _ He) as [q Hq]. congruence.
    + destruct n_flags as (-> & _). reflexivity.
    + destruct n_flags as (_ & -> & _). reflexivity.
    + destruct n_flags as (_ & _ & ->). reflexivity.
    + destruct n_zero as (-> & _). reflexivity.
    + intros i r Hr. destruct (Hz i r Hr) as (-> & -> & _). split; reflexivity.
  - pose proof (lg_funding _ _ HL) as Hf. cbn beta in Hf. lia.
  - intros c Hcf. destruct c; try reflexivity. contradiction.
Qed.

Lemma plays_app R s ms s1 ms2 s2 : plays R s ms s1 -> plays R s1 ms2 s2 -> plays R s (ms ++ ms2) s2.
Proof.
  intros H1 H2. induction H2; [rewrite app_nil_r; assumption|]. rewrite app_assoc. econstructor; eassumption.
Qed.

(** ** C102 *)

(** Whatever has happened, a presale is in a state that its rules allow, reached by moves that its
    rules allow, and the tokens that the program ever moved in and out of the vaults are, category by
    category, the amounts of these moves. *)
Theorem C102_plays_by_the_rules l k p :
  w_presales (run genesis l) !! k = Some p ->
  exists s0 ms s, opening (rules_of p) s0 /\ plays (rules_of p) s0 ms s /\ shows (run genesis l) k p s /\
    lifetime (flow k KFunding) genesis l = over_tiers (rules_of p) (fun _ t => ti_supply t) /\
    forall c, c <> KFunding -> lifetime (flow k c) genesis l = lsum (amount c) ms.
Proof.
  revert p. induction l as [|o l IH] using rev_ind; intros p Hp; [discriminate|].
  rewrite run_snoc in *. unfold exec in *.
  assert (Hw : reachable (run genesis l)) by (exists l; reflexivity). pose proof (reachable_inv _ Hw) as Hi.
  destruct (step (run genesis l) o) as [[w' x]|] eqn:Hs.
  - destruct (w_presales (run genesis l) !! k) as [p0|] eqn:Hp0.
    + destruct (IH p0 eq_refl) as (s0 & ms & s & Hop & Hpl & Hsh & Hfund & Hfl).
      destruct (follow_step _ _ _ _ _ _ _ Hw Hs Hp0 Hsh) as (p' & Hp' & ms2 & s2 & Hpl2 & Hsh2 & _ & Hfl2).
      assert (p' = p) as -> by congruence.
      destruct (presale_moves _ _ _ _ _ _ Hi Hs Hp0) as (p2 & Hp2 & Hmv). assert (p2 = p) as -> by congruence.
      rewrite (rules_kept _ _ _ Hmv). exists s0, (ms ++ ms2), s2.
      split; [assumption|]. split; [eapply plays_app; eassumption|]. split; [assumption|]. split.
      * rewrite lifetime_snoc, Hs, Hfund.
        assert (Hz : flow k KFunding o x = 0).
        { pose proof (ledger_run l k) as HL. pose proof (ledger_step _ _ _ _ _ _ Hi Hs HL) as HL2.
          unfold ledger in HL, HL2. rewrite Hp0 in HL. rewrite Hp' in HL2.
          pose proof (lg_funding _ _ HL) as H0. pose proof (lg_funding _ _ HL2) as H2. cbn beta in H0, H2.
          pose proof (mv_terms _ _ _ Hmv) as Ht. unfold terms_of in Ht.
          assert (p_supply p = p_supply p0) by congruence. lia. }
        lia.
      * intros c Hcf. rewrite lifetime_snoc, Hs, lsum_app, (Hfl c Hcf), (Hfl2 c Hcf). reflexivity.
    + destruct (opening_step _ _ _ _ _ _ Hi Hs Hp0 Hp) as (s0 & Hop & Hsh & Hf1 & Hf2).
      pose proof (ledger_run l k) as HL. unfold ledger in HL. rewrite Hp0 in HL.
      exists s0, [], s0. split; [assumption|]. split; [constructor|]. split; [assumption|]. split.
      * rewrite lifetime_snoc, Hs, HL, Hf1. rewrite (supply_same k p); [lia|].
        eapply q_cfg, (i_presales w'); [eapply inv_step; eassumption|assumption].
      * intros c Hcf. rewrite lifetime_snoc, Hs, HL, (Hf2 c Hcf). reflexivity.
  - destruct (IH p Hp) as (s0 & ms & s & Hop & Hpl & Hsh & Hfund & Hfl). exists s0, ms, s.
    repeat (split; [assumption|]). split.
    + rewrite lifetime_snoc, Hs. lia.
    + intros c Hcf. rewrite lifetime_snoc, Hs, (Hfl c Hcf). lia.
Qed.

(** One accepted operation is at most one move, and leaves the rules as they are. *)
Theorem C102_one_move w o w' l k p s :
  reachable w -> step w o = Ok (w', l) -> w_presales w !! k = Some p -> shows w k p s ->
  exists p' ms s', w_presales w' !! k = Some p' /\ rules_of p' = rules_of p /\
    plays (rules_of p) s ms s' /\ shows w' k p' s' /\ stands_for k o ms /\
    forall c, c <> KFunding -> flow k c o l = lsum (amount c) ms.
Proof.
  intros Hw Hs Hp Sh. pose proof (reachable_inv _ Hw) as Hi.
  destruct (follow_step _ _ _ _ _ _ _ Hw Hs Hp Sh) as (p' & Hp' & ms & s' & H1 & H2 & H3 & H4).
  destruct (presale_moves _ _ _ _ _ _ Hi Hs Hp) as (p2 & Hp2 & Hmv). assert (p2 = p') as -> by congruence.
  exists p', ms, s'. split; [assumption|]. split; [apply (rules_kept _ _ _ Hmv)|]. auto.
Qed.
End WithCrypto.

(** * Examples *)

#[local] Existing Instance toy.

Definition rules_in (l : list op) : option rules := option_map rules_of (w_presales (run genesis l) !! k1).

(** Three presales with their rules, and the tokens that the moves in the first account for. *)
Example C102_example :
  rules_in pr_done = Some (mkRules Prorata false true
    [mkTier 5000 1 1000 100; mkTier 700 1 1000 0; mkTier 0 0 0 0; mkTier 0 0 0 0; mkTier 0 0 0 0]
    100 1000 1000 2500 0 10 100) /\
  totals k1 pr_done = [5700; 1617; 50; 553; 5698; 1000; 0; 11; 0] /\
  option_map ru_kind (rules_in fx_paid) = Some (FixedPrice (5 * 2 ^ 63)) /\
  option_map ru_kind (rules_in fc_paid) = Some FirstCome /\
  option_map ru_early (rules_in fc_paid) = Some true.
Proof. vm_compute. auto 20. Qed.

(** A state to which [C102_one_move] applies, with three moves open to the program. *)
Example C102_example_step : exists p s, reachable (run genesis pr_over) /\
  w_presales (run genesis pr_over) !! k1 = Some p /\ shows (run genesis pr_over) k1 p s /\
  ok_step w_pr_over cw = true /\ ok_step w_pr_over cf = true /\ ok_step w_pr_over (refund bob bob_q 0) = true.
Proof.
  assert (Hb : ok_step w_pr_over cw = true /\ ok_step w_pr_over cf = true /\
    ok_step w_pr_over (refund bob bob_q 0) = true) by (vm_compute; auto).
  assert (Hn : is_Some (w_presales (run genesis pr_over) !! k1)) by (vm_compute; eauto).
  destruct Hn as [p Hp].
  destruct (C102_plays_by_the_rules pr_over k1 p Hp) as (s0 & ms & s & _ & _ & Hs & _).
  exists p, s. exact (conj (reach _) (conj Hp (conj Hs Hb))).
Qed.
