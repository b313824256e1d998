(** C105: by the rules of Sale.v every sale can be brought to an end, and then next to nothing is left. *)
From Coq Require Import Lia.
From Verif Require Import Base Math State Handlers Token World Instr Exec Spec Tactics Sums Arith
  TokenFacts Inv Acct Funs Steps Init Preserve Reach Did Trans Flow Scenario P_History P_Ledger Sale P_Sale P_Pot.

(** * Statement *)

(** The table is empty and the creator has taken what there was to take. *)
Definition finished (R : rules) (s : sale) : Prop :=
  sl_end s <= sl_now s /\ sl_seats s = ∅ /\ sl_took s = true /\
  (is_success R s -> sl_fees s = true /\ (sl_rest s = true \/ left_over R s = 0)).

(** * Shares are close to the whole *)

Lemma shares_ge {A} (l : list A) (g c : A -> Z) P :
  (forall x, x ∈ l -> 0 <= g x /\ 0 <= c x /\ (g x <> 0 -> 1 <= c x)) -> (lsum g l = 0 -> P = 0) -> 0 <= P ->
  P <= lsum (fun x => g x * P / lsum g l) l + lsum c l.
Proof.
  intros Hg HP H0. assert (HT : 0 <= lsum g l) by (apply lsum_nonneg; intros x Hx; apply (Hg x Hx)).
  assert (Hc : 0 <= lsum c l) by (apply lsum_nonneg; intros x Hx; apply (Hg x Hx)).
  set (T := lsum g l) in *. destruct (Z.eq_dec T 0) as [E|Hn].
  - rewrite (HP E). rewrite (lsum_ext _ (fun _ => 0)) by (intros; rewrite E; apply Zdiv_0_r). rewrite lsum_zero. lia.
  - assert (Hm : forall k : list A, (forall x, x ∈ k -> x ∈ l) -> P * lsum g k <= (lsum (fun x => g x * P / T) k + lsum c k) * T).
    { induction k as [|x k IH]; cbn; intros Hk; [lia|].
      specialize (IH ltac:(intros y Hy; apply Hk; constructor; assumption)).
      destruct (Hg x (Hk x ltac:(constructor))) as (G1 & G2 & G3).
      assert (P * g x <= (g x * P / T + c x) * T); [|lia].
      destruct (Z.eq_dec (g x) 0) as [->|Hx]; [rewrite Z.mul_0_l, Zdiv_0_l; nia|]. specialize (G3 Hx).
      pose proof (Z.mul_succ_div_gt (g x * P) T ltac:(lia)). nia. }
    specialize (Hm l ltac:(auto)). fold T in Hm. nia.
Qed.

Definition seats_in (s : sale) : Z := all (fun _ => 1) s.

Lemma tier_shares_ge i (g : seat -> Z) P s : (forall x, seated s x -> 0 <= g x) -> 0 <= P ->
  (all (in_tier i g) s = 0 -> P = 0) ->
  P <= all (in_tier i (fun x => g x * P / all (in_tier i g) s)) s + all (in_tier i (fun _ => 1)) s.
Proof.
  intros Hg HP H0. destruct (seat_list s) as (l & Hl & Hin). rewrite !Hl in *.
  rewrite (lsum_ext (in_tier i (fun x => g x * P / lsum (in_tier i g) l)) (fun x => in_tier i g x * P / lsum (in_tier i g) l)).
  - apply shares_ge; [|assumption..]. intros x Hx. pose proof (Hg x (Hin x Hx)). unfold in_tier. destruct (Nat.eqb _ _); lia.
  - intros x _. unfold in_tier at 1 3. destruct (Nat.eqb _ _); [reflexivity|]. rewrite Z.mul_0_l, Zdiv_0_l. reflexivity.
Qed.

Lemma imap_one {A} (l : list A) : lsum (fun n => n) (imap (fun _ _ => 1) l) = Z.of_nat (length l).
Proof. induction l as [|x l IH]; [reflexivity|]. cbn [imap lsum length]. unfold compose in *. lia. Qed.

Section Bounds.
Context (R : rules) (s : sale) (HR : well_formed R) (Hm : 0 < ru_min R <= ru_max R) (Hs : sane R s).

Lemma surplus_shared_ge : 0 < raised s -> surplus R s <= over_tiers R (fun i _ => tier_surplus R s i) + Z.of_nat (length (ru_tiers R)).
Proof.
  intros Hr.
  assert (Hsum : lsum (fun n => n) (imap (fun i (_ : tier) => tier_raised s i) (ru_tiers R)) = raised s).
  { symmetry. apply (all_tiers R). intros x Hx. apply Hs, Hx. }
  pose proof (shares_ge (imap (fun i (_ : tier) => tier_raised s i) (ru_tiers R)) (fun n => n) (fun _ => 1) (surplus R s)) as H.
  rewrite Hsum in H. rewrite <- (lsum_imap (fun _ => 1) (fun i (_ : tier) => tier_raised s i)) in H. rewrite imap_one in H.
  unfold over_tiers, tier_surplus.
  rewrite (imap_ext _ (fun i (_ : tier) => (fun n => n * surplus R s / raised s) (tier_raised s i))).
  - rewrite (lsum_imap (fun n => n * surplus R s / raised s) (fun i (_ : tier) => tier_raised s i)).
    apply H; [|lia|unfold surplus; lia]. intros n Hn.
    apply elem_of_lookup_imap_1 in Hn as (i & t & -> & _). pose proof (tier_raised_nonneg R s Hs i). lia.
  - intros i t _. cbn beta. f_equal. lia.
Qed.

Lemma seats_by_tier : over_tiers R (fun i _ => all (in_tier i (fun _ => 1)) s) = seats_in s.
Proof. symmetry. apply (all_tiers R). intros x Hx. apply Hs, Hx. Qed.

Lemma money_used : ru_min R <= raised s ->
  raised s + all sx_fee s <= all (money_back R s) s + Z.min (raised s) (ru_max R) + fees_kept R s +
    2 * seats_in s + Z.of_nat (length (ru_tiers R)).
Proof.
  intros Hok. pose proof (surplus_shared_ge ltac:(lia)) as Hsh. pose proof seats_by_tier as Hse.
  rewrite (all_tiers R sx_fee) by (intros x Hx; apply Hs, Hx).
  rewrite (all_tiers R (money_back R s)) by (intros x Hx; apply Hs, Hx).
  assert (Hb : over_tiers R (fun i _ => tier_surplus R s i + tier_fee_back R s i) <=
    over_tiers R (fun i _ => all (in_tier i (money_back R s)) s +
      (all (in_tier i (fun _ => 1)) s + all (in_tier i (fun _ => 1)) s))).
  { apply imap_le. intros i t _.
    rewrite (all_ext (in_tier i (money_back R s)) (fun x => in_tier i (fun x => sx_paid x * tier_surplus R s i / all (in_tier i sx_paid) s) x +
      in_tier i (fun x => sx_fee x * tier_fee_back R s i / all (in_tier i sx_fee) s) x)).
    - rewrite all_add.
      pose proof (tier_shares_ge i sx_paid (tier_surplus R s i) s ltac:(intros x Hx; apply Hs, Hx) (surplus_nonneg R s Hs i)) as G1.
      pose proof (tier_shares_ge i sx_fee (tier_fee_back R s i) s ltac:(intros x Hx; apply Hs, Hx) (fee_back_nonneg R s Hs i)) as G2.
      specialize (G1 ltac:(intros E; unfold tier_surplus, tier_raised; rewrite E, Z.mul_0_r; apply Zdiv_0_l)).
      specialize (G2 ltac:(intros E; unfold tier_fee_back, tier_fees; rewrite E, Z.mul_0_l; apply Zdiv_0_l)). lia.
    - intros x _. unfold in_tier at 1 2 4. destruct (Nat.eqb_spec (sx_tier x) i) as [<-|]; [|reflexivity].
      unfold money_back. destruct (Z.ltb_spec (raised s) (ru_min R)); [lia|]. reflexivity. }
  unfold over_tiers in *. rewrite !imap_add in Hb. unfold fees_kept, over_tiers.
  assert (He : lsum (fun n => n) (imap (fun i (_ : tier) => tier_fees s i - tier_fee_back R s i) (ru_tiers R)) +
    lsum (fun n => n) (imap (fun i (_ : tier) => tier_fee_back R s i) (ru_tiers R)) =
    lsum (fun n => n) (imap (fun i (_ : tier) => all (in_tier i sx_fee) s) (ru_tiers R))).
  { rewrite <- imap_add. f_equal. apply imap_ext. intros i t _. unfold tier_fees. lia. }
  unfold surplus in Hsh. lia.
Qed.

Lemma tokens_used : over_tiers R (fun _ t => ti_supply t) <= all (in_full R s) s + left_over R s + 2 * seats_in s.
Proof.
  pose proof seats_by_tier as Hse. rewrite (all_tiers R (in_full R s)) by (intros x Hx; apply Hs, Hx).
  assert (Hb : over_tiers R (fun i t => tier_sold R s i t) <=
    over_tiers R (fun i _ => all (in_tier i (in_full R s)) s + (all (in_tier i (fun _ => 1)) s + all (in_tier i (fun _ => 1)) s))).
  { apply imap_le. intros i t Ht. pose proof (sold_bounds R s HR Hs i t Ht) as Hn. pose proof (at_once_bounds R HR _ (proj1 Hn)) as Ha.
    assert (Hz : all (in_tier i sx_paid) s = 0 -> tier_sold R s i t = 0).
    { intros E. unfold tier_sold, tier_raised. rewrite E. reflexivity. }
    set (n := tier_sold R s i t) in *.
    rewrite (all_ext (in_tier i (in_full R s)) (fun x => in_tier i (fun x => sx_paid x * at_once R n / all (in_tier i sx_paid) s) x +
      in_tier i (fun x => sx_paid x * (n - at_once R n) / all (in_tier i sx_paid) s) x)).
    - rewrite all_add.
      pose proof (tier_shares_ge i sx_paid (at_once R n) s ltac:(intros x Hx; apply Hs, Hx) ltac:(lia) ltac:(intros E; specialize (Hz E); lia)).
      pose proof (tier_shares_ge i sx_paid (n - at_once R n) s ltac:(intros x Hx; apply Hs, Hx) ltac:(lia) ltac:(intros E; specialize (Hz E); lia)). lia.
    - intros x _. unfold in_tier at 1 2 4. destruct (Nat.eqb_spec (sx_tier x) i) as [<-|]; [|reflexivity].
      unfold in_full. rewrite Ht. unfold tokens_in_full, n, tier_raised. cbn zeta. f_equal; f_equal; lia. }
  assert (He : left_over R s + over_tiers R (fun i t => tier_sold R s i t) = over_tiers R (fun _ t => ti_supply t)).
  { unfold left_over, over_tiers. rewrite <- imap_add. f_equal. apply imap_ext. intros i t _. lia. }
  unfold over_tiers in *. rewrite !imap_add in Hb. lia.
Qed.
End Bounds.

(** * Seats given up were settled *)

Definition gone_well (R : rules) (s : sale) (x : seat) : Prop :=
  (sx_paid x = 0 /\ sx_fee x = 0 /\ sx_got x = 0) \/
  (sl_end s <= sl_now s /\ (sx_back x = true \/ money_back R s x = 0) /\
   (ru_min R <= raised s -> sx_got x = in_full R s x)).

Record kept (R : rules) (s : sale) : Prop := {
  kp_cap : ru_kind R <> Prorata -> raised s <= ru_max R;
  kp_gone : forall x, x ∈ sl_gone s -> gone_well R s x
}.

Lemma gone_alike R s s' x : alike s s' -> (sl_end s <= sl_now s -> sl_end s' <= sl_now s') -> gone_well R s x -> gone_well R s' x.
Proof.
  intros Ha He [Hz|(H1 & H2 & H3)]; [left; assumption|right]. split; [auto|]. rewrite (alike_money R s s' Ha). split; [assumption|].
  rewrite (proj1 Ha). intros Hr. rewrite (H3 Hr). unfold in_full. destruct (ru_tiers R !! sx_tier x); [|reflexivity].
  symmetry. apply alike_full. assumption.
Qed.
Lemma gone_open R s s' x : is_open R s -> gone_well R s x -> gone_well R s' x.
Proof. intros [_ Ho] [Hz|(H1 & _)]; [left; assumption|lia]. Qed.

Lemma kept_step R s ms m s' : well_formed R -> fair R s ms -> kept R s -> plays1 R s m s' -> kept R s'.
Proof.
  intros HR F K Hm. pose proof (kp_cap _ _ K) as Kc. pose proof (kp_gone _ _ K) as Kg.
  assert (HA : alike s s' -> (sl_end s <= sl_now s -> sl_end s' <= sl_now s') -> sl_gone s' = sl_gone s -> kept R s').
  { intros Ha He Hg. split; [rewrite (proj1 Ha); assumption|]. intros x Hx. rewrite Hg in Hx. eapply gone_alike; eauto. }
  inversion Hm; subst; try (apply HA; [apply alike_fields|cbn; lia|reflexivity]).
  - split; [|intros y Hy; eapply gone_open; eauto]. unfold raised. rewrite all_new by assumption. cbn.
    intros Hk. specialize (Kc Hk). unfold raised in Kc. lia.
  - assert (E : raised (put a (paying n (fee_on t n) x) s) = raised s + n).
    { unfold raised. rewrite (all_put _ _ _ _ _ H0). cbn. lia. }
    cbn zeta. destruct (_ && _).
    + split; [|intros y Hy; eapply gone_open; eauto]. intros Hk. specialize (H5 Hk).
      change (raised (put a (paying n (fee_on t n) x) s) <= ru_max R). lia.
    + split; [|intros y Hy; eapply gone_open; eauto]. intros Hk. specialize (H5 Hk). lia.
  - split; [|intros y Hy; eapply gone_open; eauto]. unfold raised. rewrite (all_put _ _ _ _ _ H1). cbn.
    intros Hk. specialize (Kc Hk). unfold raised in Kc. lia.
  - destruct (totals_put s a x (refunding x) H eq_refl eq_refl eq_refl) as (T1 & T2 & T3).
    apply HA; [repeat split; assumption|cbn; lia|reflexivity].
  - destruct (totals_put s a x (taking (tokens_by_now R s x t - sx_got x) x) H eq_refl eq_refl eq_refl) as (T1 & T2 & T3).
    apply HA; [repeat split; assumption|cbn; lia|reflexivity].
  - set (s2 := mkSale _ _ _ _ _ _ _).
    assert (Hall : forall f, all f s2 = all f s) by (intros f; apply all_leave; assumption).
    assert (Ha : alike s s2) by (unfold alike, raised, tier_raised, tier_fees; split; [apply Hall|split; intros; apply Hall]).
    split; [rewrite (proj1 Ha); assumption|]. intros y Hy. apply (gone_alike R s s2 y Ha); [cbn; lia|].
    cbn in Hy. apply elem_of_cons in Hy as [->|Hy]; [|auto]. assert (Hin : seated s x) by (left; eauto).
    destruct H1 as [(Ho & Hp & Hf)|[((He & Hr) & Hb)|((He & Hr) & Hg & Hb)]].
    + left. split; [assumption|]. split; [assumption|]. apply (fa_not _ _ _ F); [|assumption]. intros [He _]. destruct Ho. lia.
    + right. split; [assumption|]. split; [|lia]. destruct Hb as [Hb|Hb]; [auto|right]. unfold money_back.
      destruct (Z.ltb_spec (raised s) (ru_min R)); lia.
    + right. split; [assumption|]. split; [assumption|]. intros _. unfold in_full. rewrite H0. assumption.
Qed.

Lemma kept_plays R s0 ms s : well_formed R -> opening R s0 -> plays R s0 ms s -> kept R s.
Proof.
  intros HR Hop Hpl. induction Hpl as [|ms s1 m s2 Hpl IH Hm]; [|eapply kept_step; [assumption|eapply fair_plays; eassumption|eassumption..]].
  destruct Hop as (H1 & H2 & _ & _ & _ & _ & _ & H8). split.
  - intros _. unfold raised, all. rewrite H1, H2, msum_empty. cbn. lia.
  - intros x Hx. rewrite H2 in Hx. inversion Hx.
Qed.

(** * Little is left *)

(** In a finished sale, what is left in the pot and of the tokens is rounding: nothing at all of the
    money after a failure, otherwise at most two units for each seat ever given up and one for each
    tier, and two tokens for each seat. *)
Theorem C105_little_is_left R s0 ms s :
  well_formed R -> opening R s0 -> plays R s0 ms s -> finished R s ->
  (is_failure R s -> pot ms = 0 /\ given ms = over_tiers R (fun _ t => ti_supply t)) /\
  (is_success R s ->
    0 <= pot ms <= 2 * Z.of_nat (length (sl_gone s)) + Z.of_nat (length (ru_tiers R)) /\
    0 <= over_tiers R (fun _ t => ti_supply t) - given ms <= 2 * Z.of_nat (length (sl_gone s))).
Proof.
  intros HR Hop Hpl (Hend & Hno & Htook & Hfin).
  pose proof (fair_plays _ _ _ _ HR Hop Hpl) as F. pose proof (kept_plays _ _ _ _ HR Hop Hpl) as K.
  pose proof (fa_sane _ _ _ F) as Hs. pose proof (C104_never_overdrawn _ _ _ _ HR Hop Hpl) as Hover.
  assert (Hse : forall x, seated s x -> x ∈ sl_gone s).
  { intros x [[a Ha]|Hg]; [rewrite Hno, lookup_empty in Ha; discriminate|assumption]. }
  assert (Hcount : seats_in s = Z.of_nat (length (sl_gone s))).
  { unfold seats_in, all. rewrite Hno, msum_empty. clear. induction (sl_gone s) as [|x l IH]; [reflexivity|]. cbn [lsum length]. lia. }
  assert (Hback : all (back_part R s) s = all (money_back R s) s).
  { apply all_ext. intros x Hx. unfold back_part. destruct (sx_back x) eqn:Hb; [reflexivity|].
    destruct (kp_gone _ _ K x (Hse x Hx)) as [(H1 & H2 & _)|(_ & H1 & _)].
    - unfold money_back. rewrite H1, H2, !Z.mul_0_l, !Zdiv_0_l. destruct (_ <? _); reflexivity.
    - destruct H1; [congruence|]. lia. }
  pose proof (fa_pot _ _ _ F) as Hp. pose proof (fa_given _ _ _ F) as Hg. rewrite Htook, Hback in *.
  split.
  - intros [_ Hr]. destruct (fa_not _ _ _ F) as (H2 & H3 & Hgot); [intros [_ He]; lia|]. rewrite H2 in Hp. rewrite H3 in Hg.
    rewrite (proj2 (Z.ltb_lt _ _) Hr) in Hp, Hg.
    rewrite (all_ext sx_got (fun _ => 0)), all_zero in Hg by assumption.
    rewrite (all_ext (money_back R s) (fun x => sx_paid x + sx_fee x)) in Hp.
    + rewrite (all_add sx_paid sx_fee) in Hp. fold (raised s) in Hp. lia.
    + intros x _. unfold money_back. rewrite (proj2 (Z.ltb_lt _ _) Hr). reflexivity.
  - intros Hsu. destruct (Hfin Hsu) as (H2 & H3). destruct Hsu as [_ Hr]. rewrite H2 in Hp.
    rewrite (proj2 (Z.ltb_ge _ _) Hr) in Hp, Hg.
    pose proof (money_used R s (fa_caps _ _ _ F) Hs Hr) as Hmu. pose proof (tokens_used R s HR Hs) as Htu.
    assert (Hgot : all sx_got s = all (in_full R s) s).
    { apply all_ext. intros x Hx. destruct (kp_gone _ _ K x (Hse x Hx)) as [(H4 & H5 & H6)|(_ & _ & H4)]; [|auto].
      rewrite H6. unfold in_full. destruct (ru_tiers R !! sx_tier x); [|reflexivity]. unfold tokens_in_full.
      cbn zeta. rewrite H4, !Z.mul_0_r, !Zdiv_0_l. reflexivity. }
    rewrite Hgot in Hg. destruct H3 as [H3|H3]; [rewrite H3 in Hg|rewrite H3 in *; destruct (sl_rest s)]; lia.
Qed.

(** * Every sale can be ended *)

Definition played_so_far (R : rules) (s : sale) : Prop := exists s0 ms, opening R s0 /\ plays R s0 ms s.

(** Everything is released. *)
Definition late (R : rules) (s : sale) : Prop :=
  sl_end s <= sl_now s /\ sl_end s + ru_wait R <= sl_now s /\ sl_end s + ru_lock R + ru_vest R <= sl_now s.

Lemma so_far R s ms s' : played_so_far R s -> plays R s ms s' -> played_so_far R s'.
Proof. intros (s0 & ms0 & Hop & Hpl) Hm. exists s0, (ms0 ++ ms). split; [assumption|]. eapply plays_app; eassumption. Qed.

Lemma by_now_late R s x t : well_formed R -> late R s -> tokens_by_now R s x t = tokens_in_full R s x t.
Proof.
  intros (_ & Hv & _) (_ & Hw & Hl). unfold tokens_by_now, tokens_in_full. cbn zeta. rewrite (proj2 (Z.leb_le _ _) Hw). f_equal.
  unfold released. destruct (Z.ltb_spec (sl_now s - (sl_end s + ru_lock R)) 0); [lia|].
  destruct (Z.eqb_spec (ru_vest R) 0); [reflexivity|]. rewrite Z.min_r, Z.div_mul by lia. reflexivity.
Qed.

(** One holder is paid what is due and leaves. *)
Lemma clear_seat R s a x : well_formed R -> played_so_far R s -> late R s -> sl_seats s !! a = Some x ->
  exists ms s', plays R s ms s' /\ late R s' /\ sl_seats s' = delete a (sl_seats s).
Proof.
  intros HR Hso Hl Hx. pose proof Hso as (s0 & ms0 & Hop & Hpl).
  pose proof (fair_plays _ _ _ _ HR Hop Hpl) as F. pose proof (kept_plays _ _ _ _ HR Hop Hpl) as K.
  assert (Hin : seated s x) by (left; eauto). destruct (lookup_lt_is_Some_2 _ _ (proj1 (fa_sane _ _ _ F x Hin))) as [t Ht].
  assert (Hend : sl_end s <= sl_now s) by apply Hl.
  (* leaving, after the seat has become [y] *)
  assert (Hleave : forall y ms, plays R s ms (put a y s) -> sx_tier y = sx_tier x -> settled_up R (put a y s) y t ->
    exists ms s', plays R s ms s' /\ late R s' /\ sl_seats s' = delete a (sl_seats s)).
  { intros y ms Hms Ety Hset. eexists (ms ++ [Leave a]), _. split.
    - eapply plays_snoc; [eassumption|]. apply (pl_leave R _ a y t); [apply lookup_insert|rewrite Ety; assumption|assumption].
    - split; [exact Hl|]. cbn. apply delete_insert_delete. }
  destruct (Z.lt_ge_cases (raised s) (ru_min R)) as [Hr|Hr].
  - assert (Hf : forall y, raised (put a y s) = raised s -> is_failure R (put a y s)).
    { intros y E. split; [exact Hend|]. rewrite E. exact Hr. }
    destruct (sx_back x) eqn:Hb.
    + apply (Hleave x []); [|reflexivity|].
      * replace (put a x s) with s; [constructor|]. unfold put. destruct s; cbn in *. rewrite insert_id by assumption. reflexivity.
      * right. left. split; [|left; assumption]. apply Hf. apply (totals_put s a x x); auto.
    + apply (Hleave (refunding x) [Refund a (money_back R s x)]); [|reflexivity|].
      * apply one_move, pl_refund; [assumption..|]. left. split; assumption.
      * right. left. split; [|left; reflexivity]. apply Hf. apply (totals_put s a x (refunding x)); auto.
  - assert (Hsu : is_success R s) by (split; assumption).
    set (n := tokens_by_now R s x t - sx_got x). set (y := taking n x).
    pose proof (pl_take R s a x t Hx Ht Hsu) as Htake. fold n y in Htake.
    assert (Hgot : sx_got y = tokens_in_full R s x t) by (unfold y, n; cbn; rewrite (by_now_late R s x t HR Hl); lia).
    destruct (totals_put s a x y Hx eq_refl eq_refl eq_refl) as (T1 & T2 & T3).
    assert (Ha : alike s (put a y s)) by (repeat split; assumption).
    assert (Hsu1 : is_success R (put a y s)) by (split; [exact Hend|rewrite T1; exact Hr]).
    assert (Hdone : sx_back x = true \/ money_back R s x = 0 \/ (sx_back x = false /\ ru_kind R = Prorata)).
    { destruct (sx_back x); [auto|right]. destruct (ru_kind R) as [price| |] eqn:Hk; [left|auto|left].
      all: assert (Hc : raised s <= ru_max R) by (apply (kp_cap _ _ K); rewrite Hk; discriminate).
      all: unfold money_back; rewrite (proj2 (Z.ltb_ge _ _) Hr); unfold tier_fee_back, tier_surplus, surplus.
      all: rewrite (Z.max_l 0) by lia; repeat (rewrite Z.mul_0_l || rewrite Z.mul_0_r || rewrite Zdiv_0_l); reflexivity. }
    assert (Hno : sx_back x = true \/ money_back R s x = 0 -> exists ms s', plays R s ms s' /\ late R s' /\ sl_seats s' = delete a (sl_seats s)).
    { intros Hd. apply (Hleave y [Take a n]); [apply one_move; assumption|reflexivity|].
      right. right. split; [assumption|]. rewrite (alike_full R s _ Ha), (alike_money R s _ Ha). split; [exact Hgot|exact Hd]. }
    destruct Hdone as [Hd|[Hd|(Hb & Hk)]]; [auto..|].
    destruct (totals_put s a x (refunding y) Hx eq_refl eq_refl eq_refl) as (U1 & U2 & U3).
    assert (Hb2 : alike s (put a (refunding y) s)) by (repeat split; assumption).
    apply (Hleave (refunding y) ([Take a n] ++ [Refund a (money_back R (put a y s) y)])); [|reflexivity|].
    + eapply plays_snoc; [apply one_move; exact Htake|].
      replace (put a (refunding y) s) with (put a (refunding y) (put a y s)) by (unfold put; cbn; rewrite insert_insert; reflexivity).
      apply pl_refund; [apply lookup_insert|exact Hb|right; split; assumption].
    + right. right. split; [split; [exact Hend|rewrite U1; exact Hr]|]. rewrite (alike_full R s _ Hb2).
      split; [exact Hgot|left; reflexivity].
Qed.

Lemma clear_all R s : well_formed R -> played_so_far R s -> late R s ->
  exists ms s', plays R s ms s' /\ late R s' /\ sl_seats s' = ∅.
Proof.
  intros HR. remember (sl_seats s) as M eqn:HM. revert s HM. induction M as [|a x M Hn IH] using map_ind; intros s HM Hso Hl.
  - exists [], s. split; [constructor|]. auto.
  - destruct (clear_seat R s a x HR Hso Hl) as (ms1 & s1 & H1 & Hl1 & E1); [rewrite <- HM; apply lookup_insert|].
    rewrite <- HM, delete_insert in E1 by assumption.
    destruct (IH s1 (eq_sym E1) (so_far _ _ _ _ Hso H1) Hl1) as (ms2 & s2 & H2 & Hl2 & E2).
    exists (ms1 ++ ms2), s2. split; [eapply plays_app; eassumption|]. auto.
Qed.

(** Wherever a sale has got to, there are moves after which it is finished. *)
Theorem C105_every_sale_can_be_ended R s0 ms s :
  well_formed R -> opening R s0 -> plays R s0 ms s ->
  exists ms' s', plays R s ms' s' /\ finished R s'.
Proof.
  intros HR Hop Hpl. assert (Hso : played_so_far R s) by (exists s0, ms; auto).
  set (T := Z.max (Z.max (sl_now s) (sl_end s)) (Z.max (sl_end s + ru_wait R) (sl_end s + ru_lock R + ru_vest R))).
  pose proof (pl_time R s T ltac:(lia)) as Ht. apply one_move in Ht.
  assert (Hl : late R (mkSale T (sl_end s) (sl_seats s) (sl_gone s) (sl_took s) (sl_fees s) (sl_rest s))).
  { unfold late. cbn. lia. }
  destruct (clear_all R _ HR (so_far _ _ _ _ Hso Ht) Hl) as (ms1 & s1 & H1 & (Hend & _) & E1).
  pose proof (plays_app _ _ _ _ _ _ Ht H1) as Hp1. clear Ht H1 Hl.
  assert (Hnow : is_success R s1 \/ is_failure R s1) by (unfold is_success, is_failure; lia).
  (* what the creator takes *)
  assert (Hcreator : exists ms2 s2, plays R s1 ms2 s2 /\ sl_end s2 = sl_end s1 /\ sl_now s2 = sl_now s1 /\ sl_seats s2 = ∅ /\
    sl_gone s2 = sl_gone s1 /\ sl_took s2 = true).
  { destruct (sl_took s1) eqn:Htk; [exists [], s1; split; [constructor|auto]|].
    destruct Hnow as [Hsu|Hf].
    - eexists _, _. split; [apply one_move, pl_raise; assumption|]. cbn. auto.
    - eexists _, _. split; [apply one_move, pl_return; assumption|]. cbn. auto. }
  destruct Hcreator as (ms2 & s2 & H2 & Ee & En & Es & Eg & Et). pose proof (plays_app _ _ _ _ _ _ Hp1 H2) as Hp2.
  assert (Er : raised s2 = raised s1) by (unfold raised, all; rewrite Es, Eg, E1; reflexivity).
  destruct Hnow as [Hsu|Hf].
  - assert (Hsu2 : is_success R s2) by (unfold is_success in *; rewrite Ee, En, Er; assumption).
    assert (Hfees : exists ms3 s3, plays R s2 ms3 s3 /\ sl_end s3 = sl_end s2 /\ sl_now s3 = sl_now s2 /\ sl_seats s3 = ∅ /\
      sl_gone s3 = sl_gone s2 /\ sl_took s3 = true /\ sl_fees s3 = true).
    { destruct (sl_fees s2) eqn:Hfe; [exists [], s2; split; [constructor|auto 10]|].
      eexists _, _. split; [apply one_move, pl_fees; assumption|]. cbn. auto 10. }
    destruct Hfees as (ms3 & s3 & H3 & Ee3 & En3 & Es3 & Eg3 & Et3 & Ef3). pose proof (plays_app _ _ _ _ _ _ Hp2 H3) as Hp3.
    assert (Er3 : raised s3 = raised s2) by (unfold raised, all; rewrite Es3, Eg3, Es; reflexivity).
    assert (Hsu3 : is_success R s3) by (unfold is_success in *; rewrite Ee3, En3, Er3; assumption).
    assert (Hl3 : 0 <= left_over R s3).
    { destruct (so_far _ _ _ _ Hso Hp3) as (s00 & ms00 & Hop0 & Hpl0). apply left_nonneg; [assumption|].
      apply (fa_sane _ _ _ (fair_plays _ _ _ _ HR Hop0 Hpl0)). }
    destruct (sl_rest s3) eqn:Hre; [|destruct (Z.eq_dec (left_over R s3) 0) as [E0|E0]].
    + exists ((([Time T] ++ ms1) ++ ms2) ++ ms3), s3. split; [assumption|]. split; [apply Hsu3|]. auto 10.
    + exists ((([Time T] ++ ms1) ++ ms2) ++ ms3), s3. split; [assumption|]. split; [apply Hsu3|]. auto 10.
    + pose proof (pl_rest R s3 Hsu3 Hre ltac:(lia)) as Hrest. apply one_move in Hrest.
      eexists _, _. split; [eapply plays_app; [exact Hp3|exact Hrest]|]. split; [apply Hsu3|]. cbn. auto 10.
  - exists (([Time T] ++ ms1) ++ ms2), s2. split; [assumption|]. split; [lia|]. split; [assumption|]. split; [assumption|].
    intros [_ Hr]. destruct Hf. lia.
Qed.

Section WithCrypto.
Context `{Crypto}.

(** So every presale, wherever it has got to, has a way to its end by moves that its rules allow (and
    that C103 says can be played), and with next to nothing left then. *)
Corollary C105_every_presale_can_be_ended l k p :
  w_presales (run genesis l) !! k = Some p ->
  exists s0 ms s ms' s', opening (rules_of p) s0 /\ plays (rules_of p) s0 ms s /\ shows (run genesis l) k p s /\
    plays (rules_of p) s ms' s' /\ finished (rules_of p) s' /\
    0 <= pot (ms ++ ms') <= 2 * Z.of_nat (length (sl_gone s')) + 5.
Proof.
  intros Hp. destruct (C102_plays_by_the_rules l k p Hp) as (s0 & ms & s & Hop & Hpl & Hsh & _).
  assert (Hw : reachable (run genesis l)) by (exists l; reflexivity).
  pose proof (C104_rules_make_sense _ k p Hw Hp) as HR.
  destruct (C105_every_sale_can_be_ended _ _ _ _ HR Hop Hpl) as (ms' & s' & Hpl' & Hfin).
  exists s0, ms, s, ms', s'. repeat (split; [assumption|]).
  pose proof (plays_app _ _ _ _ _ _ Hpl Hpl') as Hall.
  destruct (C105_little_is_left _ _ _ _ HR Hop Hall Hfin) as (Hf & Hsu).
  assert (Hlen : Z.of_nat (length (ru_tiers (rules_of p))) = 5).
  { cbn [rules_of ru_tiers]. rewrite fmap_length, (c_len k p); [reflexivity|].
    apply (q_cfg _ _ _ (i_presales _ (reachable_inv _ Hw) k p Hp)). }
  destruct (Z.lt_ge_cases (raised s') (ru_min (rules_of p))) as [Hr|Hr].
  - destruct (Hf (conj (proj1 Hfin) Hr)) as [-> _]. lia.
  - destruct (Hsu (conj (proj1 Hfin) Hr)) as [H0 _]. lia.
Qed.
End WithCrypto.

(** * Examples *)

#[local] Existing Instance toy.

(** A finished sale in which at least 1617 were paid and 5698 tokens given out, continuing [pr_done]. *)
Lemma ended l k p a b c d e f g h i : w_presales (run genesis l) !! k = Some p ->
  totals k l = [a; b; c; d; e; f; g; h; i] ->
  exists s0 ms s, well_formed (rules_of p) /\ opening (rules_of p) s0 /\ plays (rules_of p) s0 ms s /\
    finished (rules_of p) s /\ b <= lsum (amount KDeposit) ms /\ e <= given ms.
Proof.
  intros Hp Ht. destruct (totals_are _ _ _ _ _ _ _ _ _ _ _ Ht) as (E1 & E2 & E3 & E4 & E5 & E6 & E7 & E8).
  destruct (C102_plays_by_the_rules l k p Hp) as (s0 & ms & s & Hop & Hpl & Hsh & Hfund & Hfl).
  pose proof (C104_rules_make_sense (run genesis l) k p ltac:(exists l; reflexivity) Hp) as HR.
  destruct (C105_every_sale_can_be_ended _ _ _ _ HR Hop Hpl) as (ms' & s' & Hpl' & Hfin).
  exists s0, (ms ++ ms'), s'. repeat (split; [first [assumption|eapply plays_app; eassumption]|]).
  destruct (C104_rules_are_solvent _ _ _ _ HR Hop (plays_app _ _ _ _ _ _ Hpl Hpl')) as (Hz & _).
  assert (Hpos : forall q, 0 <= lsum (amount q) (ms ++ ms') /\ 0 <= lsum (amount q) ms' /\ 0 <= lsum (amount q) ms).
  { intros q. repeat split; apply lsum_nonneg; intros m Hm.
    all: assert (Hm' : m ∈ ms ++ ms') by (first [assumption|apply elem_of_app; auto]).
    all: specialize (Hz m Hm'); destruct q, m; cbn in *; lia. }
  rewrite given_amounts, !lsum_app.
  pose proof (Hfl KDeposit ltac:(discriminate)). pose proof (Hfl KClaim ltac:(discriminate)).
  pose proof (Hpos KDeposit). pose proof (Hpos KClaim). pose proof (Hpos KReturned). pose proof (Hpos KUnsold). lia.
Qed.
Example C105_example : exists p s0 ms s, well_formed (rules_of p) /\ opening (rules_of p) s0 /\
  plays (rules_of p) s0 ms s /\ finished (rules_of p) s /\ 1617 <= lsum (amount KDeposit) ms /\ 5698 <= given ms.
Proof.
  assert (Ht : totals k1 pr_done = [5700; 1617; 50; 553; 5698; 1000; 0; 11; 0]) by (vm_compute; reflexivity).
  assert (Hn : is_Some (w_presales (run genesis pr_done) !! k1)) by (vm_compute; eauto).
  destruct Hn as [p Hp]. destruct (ended _ _ _ _ _ _ _ _ _ _ _ _ Hp Ht) as (s0 & ms & s & Hex).
  exists p, s0, ms, s. exact Hex.
Qed.
