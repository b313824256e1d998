(** C104: the rules of Sale.v never promise more than there is. *)
From Coq Require Import Lia.
From Verif Require Import Base Math State Handlers Token World Instr Exec Spec Tactics Sums Arith
  TokenFacts Inv Acct Funs Steps Init Preserve Reach Did Trans Flow Scenario P_History P_Ledger Sale P_Sale.

(** * Statement *)

(** Rules that make sense. *)
Definition well_formed (R : rules) : Prop :=
  0 <= ru_bps R <= 10000 /\ 0 <= ru_vest R /\ (forall price, ru_kind R = FixedPrice price -> 0 < price) /\
  forall i t, ru_tiers R !! i = Some t -> 0 <= ti_supply t /\ 0 <= ti_min t /\ 0 <= ti_bps t < 10000.

(** The amount of a move, the money in the pot after some moves, and the tokens given out. *)
Definition size (m : move) : Z :=
  match m with
  | PayIn _ n f => n + f
  | PayOut _ n | Refund _ n | Take _ n | Raise n | Return n | Fees n | Rest n => n
  | Time _ | Join _ _ _ _ | Leave _ => 0
  end.
Definition pot (ms : list move) : Z :=
  lsum (fun m => match m with
    | PayIn _ _ _ => size m
    | PayOut _ _ | Refund _ _ | Raise _ | Fees _ => - size m
    | _ => 0
    end) ms.
Definition given (ms : list move) : Z :=
  lsum (fun m => match m with Take _ _ | Return _ | Rest _ => size m | _ => 0 end) ms.

(** What the pot still owes once the sale is over, and the tokens still owed. *)
Definition owed_money (R : rules) (s : sale) : Z :=
  msum (fun _ x => if sx_back x then 0 else money_back R s x) (sl_seats s) +
  if raised s <? ru_min R then 0
  else (if sl_took s then 0 else Z.min (raised s) (ru_max R)) + (if sl_fees s then 0 else fees_kept R s).
Definition owed_tokens (R : rules) (s : sale) : Z :=
  if raised s <? ru_min R then (if sl_took s then 0 else over_tiers R (fun _ t => ti_supply t))
  else msum (fun _ x => match ru_tiers R !! sx_tier x with
                        | Some t => tokens_in_full R s x t - sx_got x | None => 0 end) (sl_seats s) +
       (if sl_rest s then 0 else left_over R s).

(** * Sums *)

Lemma div_le a b d : 0 <= d -> a <= b -> a / d <= b / d.
Proof.
  intros Hd Hab. destruct (Z.eq_dec d 0) as [->|Hn]; [rewrite !Zdiv_0_r; lia|]. apply Z.div_le_mono; lia.
Qed.
Lemma div_nonneg a d : 0 <= a -> 0 <= d -> 0 <= a / d.
Proof. intros Ha Hd. rewrite <- (Zdiv_0_l d). apply div_le; assumption. Qed.

(** The parts of [P], rounded down, are not more than [P]. *)
Lemma shares {A} (l : list A) (g : A -> Z) P :
  (forall x, x ∈ l -> 0 <= g x) -> 0 <= P -> lsum (fun x => g x * P / lsum g l) l <= P.
Proof.
  intros Hg HP. pose proof (lsum_nonneg g l Hg) as HT. set (T := lsum g l) in *.
  destruct (Z.eq_dec T 0) as [->|Hn].
  - rewrite (lsum_ext _ (fun _ => 0)) by (intros; apply Zdiv_0_r). rewrite lsum_zero. assumption.
  - assert (Hm : forall k : list A, lsum (fun x => g x * P / T) k * T <= P * lsum g k).
    { induction k as [|x k IH]; cbn; [lia|]. pose proof (Z.mul_div_le (g x * P) T ltac:(lia)). nia. }
    specialize (Hm l). fold T in Hm. nia.
Qed.

Lemma lsum_imap {A B} (h : B -> Z) (a : nat -> A -> B) l : lsum (fun n => n) (imap (fun i t => h (a i t)) l) = lsum h (imap a l).
Proof.
  revert a. induction l as [|x l IH]; intros a; [reflexivity|]. cbn. f_equal. apply (IH (fun i t => a (S i) t)).
Qed.
Lemma imap_le {A} (f g : nat -> A -> Z) l : (forall i t, l !! i = Some t -> f i t <= g i t) ->
  lsum (fun n => n) (imap f l) <= lsum (fun n => n) (imap g l).
Proof.
  revert f g. induction l as [|x l IH]; intros f g H; [cbn; lia|]. cbn.
  pose proof (H 0%nat x eq_refl).
  assert (lsum (fun n => n) (imap (f ∘ S) l) <= lsum (fun n => n) (imap (g ∘ S) l)); [|lia].
  apply IH. intros i t Ht. apply (H (S i) t Ht).
Qed.
Lemma imap_add {A} (f g : nat -> A -> Z) l :
  lsum (fun n => n) (imap (fun i t => f i t + g i t) l) = lsum (fun n => n) (imap f l) + lsum (fun n => n) (imap g l).
Proof.
  revert f g. induction l as [|x l IH]; intros f g; [reflexivity|]. cbn.
  pose proof (IH (f ∘ S) (g ∘ S)) as H. unfold compose in *. lia.
Qed.
Lemma imap_zero {A} (l : list A) : lsum (fun n => n) (imap (fun _ _ => 0) l) = 0.
Proof. induction l as [|x l IH]; [reflexivity|]. cbn. unfold compose. lia. Qed.
Lemma imap_pick {A} (l : list A) (j : nat) v : (j < length l)%nat ->
  lsum (fun n => n) (imap (fun i _ => if Nat.eqb j i then v else 0) l) = v.
Proof.
  revert j. induction l as [|x l IH]; intros j Hj; [cbn in Hj; lia|]. destruct j as [|j]; cbn; unfold compose; cbn.
  - rewrite imap_zero. lia.
  - rewrite IH; [lia|cbn in Hj; lia].
Qed.

(** A sum over seats, tier by tier. *)
Lemma by_tier R (f : seat -> Z) l : (forall x, x ∈ l -> (sx_tier x < length (ru_tiers R))%nat) ->
  lsum f l = over_tiers R (fun i _ => lsum (in_tier i f) l).
Proof.
  induction l as [|x l IH]; intros Hl; unfold over_tiers; cbn.
  - rewrite imap_zero. reflexivity.
  - rewrite imap_add, IH by (intros y Hy; apply Hl; constructor; assumption). unfold over_tiers. f_equal.
    unfold in_tier. rewrite imap_pick; [reflexivity|]. apply Hl. constructor.
Qed.

(** * The seats as a list *)

Definition seated (s : sale) (x : seat) : Prop := (exists a, sl_seats s !! a = Some x) \/ x ∈ sl_gone s.

Lemma seat_list s : exists l, (forall f, all f s = lsum f l) /\ forall x, x ∈ l -> seated s x.
Proof.
  assert (Hm : forall M : gmap addr seat, exists l, (forall f : seat -> Z, msum (fun _ x => f x) M = lsum f l) /\
    forall x, x ∈ l -> exists a, M !! a = Some x).
  { induction M as [|a x M Hn IH] using map_ind.
    - exists []. split; [intros f; apply msum_empty|]. intros x Hx. inversion Hx.
    - destruct IH as (l & Hl & Hin). exists (x :: l). split.
      + intros f. rewrite msum_insert_new by assumption. rewrite (Hl f). reflexivity.
      + intros y Hy. apply elem_of_cons in Hy as [->|Hy]; [exists a; apply lookup_insert|].
        destruct (Hin y Hy) as [b Hb]. exists b. rewrite lookup_insert_ne; [assumption|congruence]. }
  destruct (Hm (sl_seats s)) as (l & Hl & Hin). exists (l ++ sl_gone s). split.
  - intros f. unfold all. rewrite Hl, lsum_app. reflexivity.
  - intros x Hx. apply elem_of_app in Hx as [Hx|Hx]; [left; auto|right; assumption].
Qed.

Lemma all_le (f g : seat -> Z) s : (forall x, seated s x -> f x <= g x) -> all f s <= all g s.
Proof. intros H. destruct (seat_list s) as (l & Hl & Hin). rewrite !Hl. apply lsum_le. auto. Qed.
Lemma all_ext (f g : seat -> Z) s : (forall x, seated s x -> f x = g x) -> all f s = all g s.
Proof. intros H. destruct (seat_list s) as (l & Hl & Hin). rewrite !Hl. apply lsum_ext. auto. Qed.
Lemma all_nonneg (f : seat -> Z) s : (forall x, seated s x -> 0 <= f x) -> 0 <= all f s.
Proof. intros H. destruct (seat_list s) as (l & Hl & Hin). rewrite !Hl. apply lsum_nonneg. auto. Qed.
Lemma all_add (f g : seat -> Z) s : all (fun x => f x + g x) s = all f s + all g s.
Proof. destruct (seat_list s) as (l & Hl & Hin). rewrite !Hl. apply lsum_add. Qed.
Lemma all_zero s : all (fun _ => 0) s = 0.
Proof. destruct (seat_list s) as (l & Hl & Hin). rewrite !Hl. apply lsum_zero. Qed.
Lemma all_live (f : seat -> Z) s : (forall x, seated s x -> 0 <= f x) -> msum (fun _ x => f x) (sl_seats s) <= all f s.
Proof.
  intros H. unfold all. assert (0 <= lsum f (sl_gone s)); [|lia]. apply lsum_nonneg. intros x Hx. apply H. right. assumption.
Qed.
Lemma all_tiers R (f : seat -> Z) s : (forall x, seated s x -> (sx_tier x < length (ru_tiers R))%nat) ->
  all f s = over_tiers R (fun i _ => all (in_tier i f) s).
Proof.
  intros H. destruct (seat_list s) as (l & Hl & Hin). rewrite Hl, (by_tier R) by auto. unfold over_tiers. f_equal.
  apply imap_ext. intros i t _. symmetry. apply Hl.
Qed.
Lemma tier_shares i (g : seat -> Z) P s : (forall x, seated s x -> 0 <= g x) -> 0 <= P ->
  all (in_tier i (fun x => g x * P / all (in_tier i g) s)) s <= P.
Proof.
  intros Hg HP. destruct (seat_list s) as (l & Hl & Hin). rewrite !Hl.
  rewrite (lsum_ext _ (fun x => in_tier i g x * P / lsum (in_tier i g) l)).
  - apply shares; [|assumption]. intros x Hx. unfold in_tier. destruct (Nat.eqb _ _); [auto|lia].
  - intros x _. unfold in_tier at 1 3. destruct (Nat.eqb _ _); [reflexivity|]. rewrite Z.mul_0_l, Zdiv_0_l. reflexivity.
Qed.

(** * Bounds on what the rules promise *)

Definition sane (R : rules) (s : sale) : Prop :=
  forall x, seated s x -> (sx_tier x < length (ru_tiers R))%nat /\ 0 <= sx_paid x /\ 0 <= sx_fee x.

Section Bounds.
Context (R : rules) (s : sale) (HR : well_formed R) (Hm : 0 < ru_min R <= ru_max R) (Hs : sane R s).

Lemma raised_nonneg : 0 <= raised s.
Proof. apply all_nonneg. intros x Hx. apply Hs, Hx. Qed.
Lemma tier_raised_nonneg i : 0 <= tier_raised s i.
Proof. apply all_nonneg. intros x Hx. unfold in_tier. destruct (Nat.eqb _ _); [apply Hs, Hx|lia]. Qed.
Lemma tier_fees_nonneg i : 0 <= tier_fees s i.
Proof. apply all_nonneg. intros x Hx. unfold in_tier. destruct (Nat.eqb _ _); [apply Hs, Hx|lia]. Qed.
Lemma surplus_nonneg i : 0 <= tier_surplus R s i.
Proof.
  pose proof raised_nonneg. pose proof (tier_raised_nonneg i). apply div_nonneg; [|assumption].
  unfold surplus. nia.
Qed.
Lemma fee_back_nonneg i : 0 <= tier_fee_back R s i.
Proof.
  pose proof (surplus_nonneg i). pose proof (tier_raised_nonneg i). pose proof (tier_fees_nonneg i).
  apply div_nonneg; [nia|assumption].
Qed.
Lemma tier_surplus_le i : tier_surplus R s i <= tier_raised s i.
Proof.
  pose proof raised_nonneg. pose proof (tier_raised_nonneg i). unfold tier_surplus.
  destruct (Z.eq_dec (raised s) 0) as [->|Hn]; [rewrite Zdiv_0_r; assumption|].
  apply Z.div_le_upper_bound; [lia|]. unfold surplus. nia.
Qed.
Lemma fee_back_le i : tier_fee_back R s i <= tier_fees s i.
Proof.
  pose proof (tier_surplus_le i). pose proof (tier_raised_nonneg i). pose proof (tier_fees_nonneg i).
  pose proof (surplus_nonneg i). unfold tier_fee_back.
  destruct (Z.eq_dec (tier_raised s i) 0) as [->|Hn]; [rewrite Zdiv_0_r; assumption|].
  apply Z.div_le_upper_bound; [lia|]. nia.
Qed.
Lemma fees_kept_nonneg : 0 <= fees_kept R s.
Proof.
  rewrite <- (imap_zero (ru_tiers R)). apply imap_le. intros i t _. pose proof (fee_back_le i). lia.
Qed.
Lemma money_back_nonneg x : seated s x -> 0 <= money_back R s x.
Proof.
  intros Hx. destruct (Hs x Hx) as (_ & Hp & Hf). unfold money_back. destruct (Z.ltb_spec (raised s) (ru_min R)); [lia|].
  pose proof (surplus_nonneg (sx_tier x)). pose proof (fee_back_nonneg (sx_tier x)).
  pose proof (tier_raised_nonneg (sx_tier x)). pose proof (tier_fees_nonneg (sx_tier x)).
  apply Z.add_nonneg_nonneg; apply div_nonneg; nia.
Qed.

(** The tiers' parts of the surplus are not more than the surplus. *)
Lemma surplus_shared : over_tiers R (fun i _ => tier_surplus R s i) <= surplus R s.
Proof.
  assert (Hsum : lsum (fun n => n) (imap (fun i (_ : tier) => tier_raised s i) (ru_tiers R)) = raised s).
  { symmetry. apply (all_tiers R). intros x Hx. apply Hs, Hx. }
  pose proof (shares (imap (fun i (_ : tier) => tier_raised s i) (ru_tiers R)) (fun n => n) (surplus R s)) as H.
  rewrite Hsum in H. unfold over_tiers, tier_surplus.
  rewrite (imap_ext _ (fun i (_ : tier) => (fun n => n * surplus R s / raised s) (tier_raised s i))).
  - rewrite (lsum_imap (fun n => n * surplus R s / raised s) (fun i (_ : tier) => tier_raised s i)). apply H; [|unfold surplus; lia]. intros n Hn.
    apply elem_of_lookup_imap_1 in Hn as (i & t & -> & _). apply tier_raised_nonneg.
  - intros i t _. cbn beta. f_equal. lia.
Qed.

(** After a success, all refunds, the proceeds and the fees together are covered. *)
Lemma money_covered : ru_min R <= raised s ->
  all (money_back R s) s + Z.min (raised s) (ru_max R) + fees_kept R s <= raised s + all sx_fee s.
Proof.
  intros Hok. pose proof surplus_shared as Hsh.
  rewrite (all_tiers R sx_fee) by (intros x Hx; apply Hs, Hx).
  rewrite (all_tiers R (money_back R s)) by (intros x Hx; apply Hs, Hx).
  assert (Hb : over_tiers R (fun i _ => all (in_tier i (money_back R s)) s) <=
    over_tiers R (fun i _ => tier_surplus R s i + tier_fee_back R s i)).
  { apply imap_le. intros i t _.
    rewrite (all_ext _ (fun x => in_tier i (fun x => sx_paid x * tier_surplus R s i / all (in_tier i sx_paid) s) x +
      in_tier i (fun x => sx_fee x * tier_fee_back R s i / all (in_tier i sx_fee) s) x)).
    - rewrite all_add. apply Z.add_le_mono; apply tier_shares; try (intros x Hx; apply Hs, Hx).
      + apply surplus_nonneg.
      + apply fee_back_nonneg.
    - intros x _. unfold in_tier at 1 2 4. destruct (Nat.eqb_spec (sx_tier x) i) as [<-|]; [|reflexivity].
      unfold money_back. destruct (Z.ltb_spec (raised s) (ru_min R)); [lia|]. reflexivity. }
  unfold over_tiers in *. rewrite imap_add in Hb. unfold fees_kept, over_tiers.
  assert (He : lsum (fun n => n) (imap (fun i (_ : tier) => tier_fees s i - tier_fee_back R s i) (ru_tiers R)) +
    lsum (fun n => n) (imap (fun i (_ : tier) => tier_fee_back R s i) (ru_tiers R)) =
    lsum (fun n => n) (imap (fun i (_ : tier) => all (in_tier i sx_fee) s) (ru_tiers R))).
  { rewrite <- imap_add. f_equal. apply imap_ext. intros i t _. unfold tier_fees. lia. }
  unfold surplus in Hsh. lia.
Qed.

(** ** Tokens *)

Lemma sold_bounds i t : ru_tiers R !! i = Some t -> 0 <= tier_sold R s i t <= ti_supply t.
Proof.
  intros Ht. destruct HR as (_ & _ & Hprice & Htier). destruct (Htier i t Ht) as (Hsup & _).
  pose proof (tier_raised_nonneg i). unfold tier_sold. destruct (_ =? 0); [lia|].
  destruct (ru_kind R) as [price| |] eqn:Hk; [|lia..]. specialize (Hprice price eq_refl).
  assert (0 <= tier_raised s i * two64 / price); [|lia]. apply div_nonneg; [|lia].
  apply Z.mul_nonneg_nonneg; [assumption|]. discriminate.
Qed.
Lemma at_once_bounds n : 0 <= n -> 0 <= at_once R n <= n.
Proof.
  intros Hn. destruct HR as (Hb & _). unfold at_once. split; [apply div_nonneg; nia|].
  apply Z.div_le_upper_bound; nia.
Qed.
Lemma released_bounds n : 0 <= n -> 0 <= released R s n <= n.
Proof.
  intros Hn. destruct HR as (_ & Hv & _). unfold released. destruct (Z.ltb_spec (sl_now s - (sl_end s + ru_lock R)) 0); [lia|].
  destruct (Z.eqb_spec (ru_vest R) 0); [lia|]. split; [apply div_nonneg; nia|]. apply Z.div_le_upper_bound; nia.
Qed.
Lemma left_nonneg : 0 <= left_over R s.
Proof.
  rewrite <- (imap_zero (ru_tiers R)). apply imap_le. intros i t Ht. pose proof (sold_bounds i t Ht). lia.
Qed.
Lemma by_now_bounds x t : seated s x -> ru_tiers R !! sx_tier x = Some t ->
  0 <= tokens_by_now R s x t <= tokens_in_full R s x t.
Proof.
  intros Hx Ht. destruct (Hs x Hx) as (_ & Hp & _). pose proof (sold_bounds _ _ Ht) as Hn.
  pose proof (tier_raised_nonneg (sx_tier x)) as Hd. unfold tokens_by_now, tokens_in_full. cbn zeta.
  pose proof (at_once_bounds _ (proj1 Hn)) as Ha.
  pose proof (released_bounds (tier_sold R s (sx_tier x) t - at_once R (tier_sold R s (sx_tier x) t)) ltac:(lia)) as Hr.
  set (n := tier_sold _ _ _ _) in *. set (d := tier_raised _ _) in *.
  pose proof (div_nonneg (at_once R n * sx_paid x) d ltac:(nia) Hd).
  pose proof (div_nonneg (released R s (n - at_once R n) * sx_paid x) d ltac:(nia) Hd).
  pose proof (div_le (released R s (n - at_once R n) * sx_paid x) ((n - at_once R n) * sx_paid x) d Hd ltac:(nia)).
  destruct (_ <=? _); lia.
Qed.

(** After a success, what the buyers get in the end and what is left over is the supply at most. *)
Definition in_full (x : seat) : Z :=
  match ru_tiers R !! sx_tier x with Some t => tokens_in_full R s x t | None => 0 end.
Lemma tokens_covered : all in_full s + left_over R s <= over_tiers R (fun _ t => ti_supply t).
Proof.
  rewrite (all_tiers R in_full) by (intros x Hx; apply Hs, Hx).
  assert (Hb : over_tiers R (fun i _ => all (in_tier i in_full) s) <= over_tiers R (fun i t => tier_sold R s i t)).
  { apply imap_le. intros i t Ht. pose proof (sold_bounds i t Ht) as Hn. pose proof (at_once_bounds _ (proj1 Hn)) as Ha.
    set (n := tier_sold R s i t) in *.
    rewrite (all_ext _ (fun x => in_tier i (fun x => sx_paid x * at_once R n / all (in_tier i sx_paid) s) x +
      in_tier i (fun x => sx_paid x * (n - at_once R n) / all (in_tier i sx_paid) s) x)).
    - rewrite all_add.
      pose proof (tier_shares i sx_paid (at_once R n) s ltac:(intros x Hx; apply Hs, Hx) ltac:(lia)).
      pose proof (tier_shares i sx_paid (n - at_once R n) s ltac:(intros x Hx; apply Hs, Hx) ltac:(lia)). lia.
    - intros x _. unfold in_tier at 1 2 4. destruct (Nat.eqb_spec (sx_tier x) i) as [<-|]; [|reflexivity].
      unfold in_full. rewrite Ht. unfold tokens_in_full, n, tier_raised. cbn zeta. f_equal; f_equal; lia. }
  assert (He : left_over R s + over_tiers R (fun i t => tier_sold R s i t) = over_tiers R (fun _ t => ti_supply t)).
  { unfold left_over, over_tiers. rewrite <- imap_add. f_equal. apply imap_ext. intros i t _. lia. }
  lia.
Qed.
End Bounds.

(** * What does not depend on claims, refunds and the creator *)

Definition alike (s s' : sale) : Prop :=
  raised s' = raised s /\ (forall i, tier_raised s' i = tier_raised s i) /\ forall i, tier_fees s' i = tier_fees s i.

Section Alike.
Context (R : rules) (s s' : sale) (H : alike s s').
Lemma alike_surplus i : tier_surplus R s' i = tier_surplus R s i.
Proof. destruct H as (H1 & H2 & H3). unfold tier_surplus, surplus. rewrite H1, H2. reflexivity. Qed.
Lemma alike_fee_back i : tier_fee_back R s' i = tier_fee_back R s i.
Proof. destruct H as (H1 & H2 & H3). unfold tier_fee_back. rewrite alike_surplus, H2, H3. reflexivity. Qed.
Lemma alike_money x : money_back R s' x = money_back R s x.
Proof.
  destruct H as (H1 & H2 & H3). unfold money_back. rewrite alike_surplus, alike_fee_back, H1, H2, H3. reflexivity.
Qed.
Lemma alike_kept : fees_kept R s' = fees_kept R s.
Proof.
  destruct H as (H1 & H2 & H3). unfold fees_kept, over_tiers. f_equal. apply imap_ext. intros i t _.
  rewrite alike_fee_back, H3. reflexivity.
Qed.
Lemma alike_sold i t : tier_sold R s' i t = tier_sold R s i t.
Proof. destruct H as (H1 & H2 & H3). unfold tier_sold. rewrite H2. reflexivity. Qed.
Lemma alike_left : left_over R s' = left_over R s.
Proof. unfold left_over, over_tiers. f_equal. apply imap_ext. intros i t _. rewrite alike_sold. reflexivity. Qed.
Lemma alike_full x t : tokens_in_full R s' x t = tokens_in_full R s x t.
Proof. destruct H as (H1 & H2 & H3). unfold tokens_in_full. rewrite alike_sold, H2. reflexivity. Qed.
Lemma alike_now x t : sl_now s' = sl_now s -> sl_end s' = sl_end s -> tokens_by_now R s' x t = tokens_by_now R s x t.
Proof.
  destruct H as (H1 & H2 & H3). intros Hn He. unfold tokens_by_now, released. rewrite alike_sold, H2, Hn, He. reflexivity.
Qed.
End Alike.

Lemma by_now_grows R s s' x t : well_formed R -> sane R s -> alike s s' -> sl_end s' = sl_end s -> sl_now s <= sl_now s' ->
  seated s x -> ru_tiers R !! sx_tier x = Some t -> tokens_by_now R s x t <= tokens_by_now R s' x t.
Proof.
  intros HR Hs Ha He Hnow Hx Ht. destruct (Hs x Hx) as (_ & Hp & _). pose proof (sold_bounds R s HR Hs _ _ Ht) as Hn.
  pose proof (tier_raised_nonneg R s Hs (sx_tier x)) as Hd. unfold tokens_by_now. cbn zeta.
  rewrite (alike_sold R s s' Ha), He. destruct Ha as (H1 & H2 & H3). rewrite H2.
  pose proof (at_once_bounds R HR _ (proj1 Hn)) as Hb. set (n := tier_sold _ _ _ _) in *. set (d := tier_raised _ _) in *.
  pose proof (div_nonneg (at_once R n * sx_paid x) d ltac:(nia) Hd).
  assert (Hr : released R s (n - at_once R n) <= released R s' (n - at_once R n)).
  { destruct HR as (_ & Hv & _). unfold released. rewrite He.
    destruct (Z.ltb_spec (sl_now s - (sl_end s + ru_lock R)) 0), (Z.ltb_spec (sl_now s' - (sl_end s + ru_lock R)) 0);
      destruct (Z.eqb_spec (ru_vest R) 0); try lia.
    - apply div_nonneg; nia.
    - apply Z.div_le_mono; [lia|]. nia. }
  pose proof (div_le (released R s (n - at_once R n) * sx_paid x) (released R s' (n - at_once R n) * sx_paid x) d Hd ltac:(nia)).
  destruct (Z.leb_spec (sl_end s + ru_wait R) (sl_now s)), (Z.leb_spec (sl_end s + ru_wait R) (sl_now s')); lia.
Qed.

(** * The invariant *)

Definition back_part (R : rules) (s : sale) (x : seat) : Z := if sx_back x then money_back R s x else 0.

Record fair (R : rules) (s : sale) (ms : list move) : Prop := {
  fa_caps : 0 < ru_min R <= ru_max R;
  fa_sane : sane R s;
  fa_early : sl_now s < sl_end s -> sl_took s = false /\ forall x, seated s x -> sx_back x = false;
  fa_not : ~ is_success R s -> sl_fees s = false /\ sl_rest s = false /\ forall x, seated s x -> sx_got x = 0;
  fa_got : is_success R s -> forall x t, seated s x -> ru_tiers R !! sx_tier x = Some t ->
    0 <= sx_got x <= tokens_by_now R s x t;
  fa_pot : pot ms = raised s + all sx_fee s - all (back_part R s) s -
    (if sl_took s then if raised s <? ru_min R then 0 else Z.min (raised s) (ru_max R) else 0) -
    (if sl_fees s then fees_kept R s else 0);
  fa_given : given ms = all sx_got s + (if sl_rest s then left_over R s else 0) +
    (if sl_took s then if raised s <? ru_min R then over_tiers R (fun _ t => ti_supply t) else 0 else 0);
  fa_size : forall m, m ∈ ms -> 0 <= size m
}.

Lemma sizes ms m : (forall m, m ∈ ms -> 0 <= size m) -> 0 <= size m -> forall m', m' ∈ ms ++ [m] -> 0 <= size m'.
Proof.
  intros H Hm m' Hm'. apply elem_of_app in Hm' as [Hm'|Hm']; [auto|]. apply elem_of_list_singleton in Hm' as ->. assumption.
Qed.
Lemma pot_snoc ms m : pot (ms ++ [m]) = pot ms + pot [m].
Proof. apply lsum_app. Qed.
Lemma given_snoc ms m : given (ms ++ [m]) = given ms + given [m].
Proof. apply lsum_app. Qed.

Lemma seated_put s a x y : seated (put a x s) y -> y = x \/ seated s y.
Proof.
  intros [[b Hb]|Hg]; [|right; right; assumption]. cbn in Hb. destruct (decide (a = b)) as [<-|Hn].
  - rewrite lookup_insert in Hb. left. congruence.
  - rewrite lookup_insert_ne in Hb by assumption. right. left. eauto.
Qed.

(** A state before the end, or at the moment it ends. *)
Lemma fair_open R s ms : well_formed R -> 0 < ru_min R <= ru_max R -> sane R s ->
  sl_took s = false -> sl_fees s = false -> sl_rest s = false ->
  (forall x, seated s x -> sx_back x = false /\ sx_got x = 0) ->
  pot ms = raised s + all sx_fee s -> given ms = 0 -> (forall m, m ∈ ms -> 0 <= size m) -> fair R s ms.
Proof.
  intros HR Hm Hs H1 H2 H3 Hx Hp Hg Hz. split; try assumption.
  - intros _. split; [assumption|]. intros x Hin. apply Hx, Hin.
  - intros _. repeat (split; [assumption|]). intros x Hin. apply Hx, Hin.
  - intros _ x t Hin Ht. rewrite (proj2 (Hx x Hin)). pose proof (by_now_bounds R s HR Hs x t Hin Ht). lia.
  - rewrite (all_ext (back_part R s) (fun _ => 0)) by (intros x Hin; unfold back_part; rewrite (proj1 (Hx x Hin)); reflexivity).
    rewrite all_zero, H1, H2. lia.
  - rewrite (all_ext sx_got (fun _ => 0)) by (intros x Hin; apply Hx, Hin). rewrite all_zero, H1, H3. lia.
Qed.

Lemma opened R s ms : fair R s ms -> is_open R s ->
  sl_took s = false /\ sl_fees s = false /\ sl_rest s = false /\
  (forall x, seated s x -> sx_back x = false /\ sx_got x = 0) /\
  pot ms = raised s + all sx_fee s /\ given ms = 0.
Proof.
  intros F [_ Ho]. destruct (fa_early _ _ _ F Ho) as (H1 & Hb).
  destruct (fa_not _ _ _ F) as (H2 & H3 & Hg); [intros [He _]; lia|].
  repeat (split; [assumption|]). split; [auto|]. rewrite (fa_pot _ _ _ F), (fa_given _ _ _ F), H1, H2, H3.
  rewrite (all_ext (back_part R s) (fun _ => 0)) by (intros x Hin; unfold back_part; rewrite (Hb x Hin); reflexivity).
  rewrite (all_ext sx_got (fun _ => 0)) by (intros x Hin; apply Hg, Hin). rewrite !all_zero. lia.
Qed.

Lemma success_dec R s : is_success R s \/ ~ is_success R s.
Proof. unfold is_success. lia. Qed.

(** Moves after which every seat has what it had, and the same totals. *)
Lemma alike_fields s n e t b c : alike s (mkSale n e (sl_seats s) (sl_gone s) t b c).
Proof. repeat split. Qed.
Lemma fee_on_nonneg t n : 0 <= ti_bps t < 10000 -> 0 <= n -> 0 <= fee_on t n.
Proof.
  intros Hb Hn. unfold fee_on, up. assert (n <= (n * 10000 + (10000 - ti_bps t) - 1) / (10000 - ti_bps t)); [|lia].
  apply Z.div_le_lower_bound; nia.
Qed.

Lemma fair_flags R s ms n t b c ms' : well_formed R -> fair R s ms -> sl_now s <= n ->
  (n < sl_end s -> t = false) ->
  (~ (sl_end s <= n /\ ru_min R <= raised s) -> b = false /\ c = false) ->
  pot ms' = raised s + all sx_fee s - all (back_part R s) s -
    (if t then if raised s <? ru_min R then 0 else Z.min (raised s) (ru_max R) else 0) -
    (if b then fees_kept R s else 0) ->
  given ms' = all sx_got s + (if c then left_over R s else 0) +
    (if t then if raised s <? ru_min R then over_tiers R (fun _ t => ti_supply t) else 0 else 0) ->
  (forall m, m ∈ ms' -> 0 <= size m) ->
  fair R (mkSale n (sl_end s) (sl_seats s) (sl_gone s) t b c) ms'.
Proof.
  intros HR F Hn Ht Hbc Hp Hg Hz. pose proof (alike_fields s n (sl_end s) t b c) as Ha.
  set (s' := mkSale n (sl_end s) (sl_seats s) (sl_gone s) t b c) in *.
  split; try assumption.
  - apply (fa_caps _ _ _ F).
  - exact (fa_sane _ _ _ F).
  - intros Hlt. split; [auto|]. intros x Hx. apply (fa_early _ _ _ F); [cbn in Hlt; lia|exact Hx].
  - intros Hns. destruct (Hbc Hns). split; [assumption|]. split; [assumption|]. intros x Hx.
    apply (fa_not _ _ _ F); [|exact Hx]. intros [H1 H2]. apply Hns. split; [cbn; lia|exact H2].
  - intros Hsu x tt Hx Htt. pose proof (by_now_bounds R s' HR (fa_sane _ _ _ F) x tt Hx Htt).
    destruct (success_dec R s) as [Hs|Hs].
    + pose proof (fa_got _ _ _ F Hs x tt Hx Htt).
      pose proof (by_now_grows R s s' x tt HR (fa_sane _ _ _ F) Ha eq_refl Hn Hx Htt). lia.
    + destruct (fa_not _ _ _ F Hs) as (_ & _ & H0). rewrite (H0 x Hx). lia.
Qed.

Lemma fair_put R s ms a x x' t ms' : well_formed R -> fair R s ms -> sl_seats s !! a = Some x -> ru_tiers R !! sx_tier x = Some t ->
  sl_end s <= sl_now s -> sx_tier x' = sx_tier x -> sx_paid x' = sx_paid x -> sx_fee x' = sx_fee x ->
  (is_success R s -> 0 <= sx_got x' <= tokens_by_now R s x t) -> (~ is_success R s -> sx_got x' = 0) ->
  pot ms' = pot ms + back_part R s x - back_part R s x' -> given ms' = given ms - sx_got x + sx_got x' ->
  (forall m, m ∈ ms' -> 0 <= size m) -> fair R (put a x' s) ms'.
Proof.
  intros HR F Hx Ht Hend Et Ep Ef Hsu Hns Hp Hg Hz. destruct (totals_put s a x x' Hx Et Ep Ef) as (T1 & T2 & T3).
  assert (Ha : alike s (put a x' s)) by (split; [exact T1|split; assumption]).
  assert (Hin : seated s x) by (left; eauto).
  assert (Efull : forall t, tokens_by_now R s x' t = tokens_by_now R s x t).
  { intros t0. unfold tokens_by_now. rewrite Et, Ep. reflexivity. }
  split; try assumption.
  - apply (fa_caps _ _ _ F).
  - intros y Hy. apply seated_put in Hy as [->|Hy]; [|apply (fa_sane _ _ _ F y Hy)]. rewrite Et, Ep, Ef. apply (fa_sane _ _ _ F x Hin).
  - cbn. intros Hlt. lia.
  - intros Hn. assert (Hn' : ~ is_success R s).
    { intros [H1 H2]. apply Hn. split; [exact H1|]. rewrite T1. exact H2. }
    destruct (fa_not _ _ _ F Hn') as (H1 & H2 & H3). repeat (split; [assumption|]).
    intros y Hy. apply seated_put in Hy as [->|Hy]; auto.
  - intros [H1 H2] y ty Hy Hty. rewrite T1 in H2. assert (Hs : is_success R s) by (split; assumption).
    rewrite (alike_now R s _ Ha) by reflexivity. apply seated_put in Hy as [->|Hy].
    + rewrite Efull. rewrite Et in Hty. assert (ty = t) as -> by congruence. apply (Hsu Hs).
    + apply (fa_got _ _ _ F Hs y ty Hy Hty).
  - rewrite Hp, (fa_pot _ _ _ F), T1, (alike_kept R s _ Ha).
    rewrite (all_ext (back_part R (put a x' s)) (back_part R s)).
    + rewrite (all_put (back_part R s) _ _ _ _ Hx), (all_put sx_fee _ _ _ _ Hx), Ef. cbn [put sl_took sl_fees]. lia.
    + intros y _. unfold back_part. rewrite (alike_money R s _ Ha). reflexivity.
  - rewrite Hg, (fa_given _ _ _ F), T1, (alike_left R s _ Ha), (all_put sx_got _ _ _ _ Hx). cbn [put sl_took sl_rest]. lia.
Qed.

Lemma fair_step R s ms m s' : well_formed R -> fair R s ms -> plays1 R s m s' -> fair R s' (ms ++ [m]).
Proof.
  intros HR F Hm. pose proof (fa_caps _ _ _ F) as Hcap. pose proof (fa_sane _ _ _ F) as Hs. pose proof (fa_size _ _ _ F) as Hz.
  inversion Hm; subst.
  - (* Time *)
    apply (fair_flags R s ms); try assumption.
    + intros Hl. apply (fa_early _ _ _ F). lia.
    + intros Hn. destruct (fa_not _ _ _ F) as (H1 & H2 & _); [|auto]. intros [H1 H2]. apply Hn. lia.
    + rewrite pot_snoc, (fa_pot _ _ _ F). cbn. lia.
    + rewrite given_snoc, (fa_given _ _ _ F). cbn. lia.
    + apply sizes; [assumption|cbn; lia].
  - (* Join *)
    destruct (opened _ _ _ F H) as (F1 & F2 & F3 & Fx & Fp & Fg).
    pose proof (lookup_lt_Some _ _ _ H0) as Hi.
    apply fair_open; try assumption.
    + intros y Hy. apply seated_put in Hy as [->|Hy]; [cbn; split; [exact Hi|lia]|apply Hs, Hy].
    + intros y Hy. apply seated_put in Hy as [->|Hy]; [cbn; auto|apply Fx, Hy].
    + rewrite pot_snoc, Fp. unfold raised. rewrite !all_new by assumption. cbn. lia.
    + rewrite given_snoc, Fg. reflexivity.
    + apply sizes; [assumption|cbn; lia].
  - (* PayIn *)
    destruct (opened _ _ _ F H) as (F1 & F2 & F3 & Fx & Fp & Fg). assert (Hin : seated s x) by (left; eauto).
    pose proof (proj2 (proj2 (proj2 HR))) as HR4. destruct (HR4 _ _ H1) as (_ & _ & Hb).
    pose proof (fee_on_nonneg t n Hb ltac:(lia)) as Hfee. destruct (Hs x Hin) as (Hti & Hpx & Hfx).
    set (s1 := put a (paying n (fee_on t n) x) s).
    assert (HA : forall s', (forall y, seated s' y -> seated s1 y) -> (forall f, all f s' = all f s1) ->
      sl_took s' = false -> sl_fees s' = false -> sl_rest s' = false -> fair R s' (ms ++ [PayIn a n (fee_on t n)])).
    { intros s2 Hse Hall G1 G2 G3. apply fair_open; try assumption.
      - intros y Hy. apply Hse, seated_put in Hy as [->|Hy]; [cbn; split; [assumption|lia]|apply Hs, Hy].
      - intros y Hy. apply Hse, seated_put in Hy as [->|Hy]; [cbn; apply (Fx x Hin)|apply Fx, Hy].
      - rewrite pot_snoc, Fp. unfold raised. rewrite !Hall. unfold s1. rewrite !(all_put _ _ _ _ _ H0). cbn. lia.
      - rewrite given_snoc, Fg. reflexivity.
      - apply sizes; [assumption|cbn; lia]. }
    cbn zeta. destruct (_ && _); apply HA; auto.
  - (* PayOut *)
    destruct (opened _ _ _ F H) as (F1 & F2 & F3 & Fx & Fp & Fg). assert (Hin : seated s x) by (left; eauto).
    destruct (Hs x Hin) as (Hti & Hpx & Hfx). pose proof (proj2 (proj2 (proj2 HR))) as HR4. destruct (HR4 _ _ H2) as (_ & Hmin & _).
    apply fair_open; try assumption.
    + intros y Hy. apply seated_put in Hy as [->|Hy]; [cbn; split; [assumption|lia]|apply Hs, Hy].
    + intros y Hy. apply seated_put in Hy as [->|Hy]; [cbn; apply (Fx x Hin)|apply Fx, Hy].
    + rewrite pot_snoc, Fp. unfold raised. rewrite !(all_put _ _ _ _ _ H1). cbn. lia.
    + rewrite given_snoc, Fg. reflexivity.
    + apply sizes; [assumption|cbn; lia].
  - (* Refund *)
    assert (Hin : seated s x) by (left; eauto). destruct (Hs x Hin) as (Hti & _).
    destruct (lookup_lt_is_Some_2 _ _ Hti) as [t Ht].
    apply (fair_put R s ms a x (refunding x) t); try assumption; try reflexivity.
    + destruct H1 as [[? _]|[[? _] _]]; assumption.
    + intros Hsu. apply (fa_got _ _ _ F Hsu x t Hin Ht).
    + intros Hsu. destruct (fa_not _ _ _ F Hsu) as (_ & _ & H3). exact (H3 x Hin).
    + rewrite pot_snoc. unfold back_part. rewrite H0. cbn [refunding sx_back].
      change (money_back R s (refunding x)) with (money_back R s x). cbn. lia.
    + rewrite given_snoc. cbn. lia.
    + apply sizes; [assumption|]. cbn. apply money_back_nonneg; assumption.
  - (* Take *)
    assert (Hin : seated s x) by (left; eauto). pose proof (fa_got _ _ _ F H1 x t Hin H0) as Hgot.
    apply (fair_put R s ms a x (taking (tokens_by_now R s x t - sx_got x) x) t); try assumption; try reflexivity.
    + apply H1.
    + intros _. cbn. lia.
    + intros Hn. contradiction.
    + rewrite pot_snoc. unfold back_part. cbn [taking sx_back].
      change (money_back R s (taking _ x)) with (money_back R s x). cbn. lia.
    + rewrite given_snoc. cbn. lia.
    + apply sizes; [assumption|]. cbn. lia.
  - (* Leave *)
    set (s2 := mkSale _ _ _ _ _ _ _).
    assert (Hall : forall f, all f s2 = all f s) by (intros f; apply all_leave; assumption).
    assert (Ha : alike s s2) by (unfold alike, raised, tier_raised, tier_fees; split; [apply Hall|split; intros; apply Hall]).
    assert (Hse : forall y, seated s2 y -> seated s y).
    { intros y [[b Hb]|Hg].
      - cbn in Hb. apply lookup_delete_Some in Hb as [_ Hb]. left. eauto.
      - cbn in Hg. apply elem_of_cons in Hg as [->|Hg]; [left; eauto|right; assumption]. }
    assert (Esu : is_success R s2 <-> is_success R s) by (unfold is_success; rewrite (proj1 Ha); reflexivity).
    split; try assumption.
    + intros y Hy. apply Hs, Hse, Hy.
    + intros Hl. destruct (fa_early _ _ _ F Hl) as (G1 & G2). split; [exact G1|auto].
    + intros Hn. rewrite Esu in Hn. destruct (fa_not _ _ _ F Hn) as (G1 & G2 & G3). repeat (split; [assumption|]). auto.
    + intros Hsu y ty Hy Hty. rewrite Esu in Hsu. rewrite (alike_now R s s2 Ha) by reflexivity. apply (fa_got _ _ _ F); auto.
    + rewrite pot_snoc, (fa_pot _ _ _ F), (alike_kept R s s2 Ha), (proj1 Ha), !Hall.
      rewrite (all_ext (back_part R s2) (back_part R s)); [cbn; lia|].
      intros y _. unfold back_part. rewrite (alike_money R s s2 Ha). reflexivity.
    + rewrite given_snoc, (fa_given _ _ _ F), (alike_left R s s2 Ha), (proj1 Ha), !Hall. cbn. lia.
    + apply sizes; [assumption|cbn; lia].
  - (* Raise *)
    destruct H as [He Hr]. apply (fair_flags R s ms); try assumption; try lia.
    + rewrite pot_snoc, (fa_pot _ _ _ F), H0. destruct (Z.ltb_spec (raised s) (ru_min R)); [lia|]. cbn. lia.
    + rewrite given_snoc, (fa_given _ _ _ F), H0. destruct (Z.ltb_spec (raised s) (ru_min R)); [lia|]. cbn. lia.
    + apply sizes; [assumption|]. cbn. lia.
  - (* Return *)
    destruct H as [He Hr]. destruct (fa_not _ _ _ F) as (G1 & G2 & _); [intros [_ Hn]; lia|].
    apply (fair_flags R s ms); try assumption; try lia; try (intros _; split; assumption).
    + rewrite pot_snoc, (fa_pot _ _ _ F), H0. destruct (Z.ltb_spec (raised s) (ru_min R)); [|lia]. cbn. lia.
    + rewrite given_snoc, (fa_given _ _ _ F), H0. destruct (Z.ltb_spec (raised s) (ru_min R)); [|lia]. cbn. lia.
    + apply sizes; [assumption|]. cbn. rewrite <- (imap_zero (ru_tiers R)). apply imap_le. intros i t Ht.
      apply HR in Ht. lia.
  - (* Fees *)
    destruct H as [He Hr]. apply (fair_flags R s ms); try assumption; try lia.
    + rewrite pot_snoc, (fa_pot _ _ _ F), H0. cbn. lia.
    + rewrite given_snoc, (fa_given _ _ _ F). cbn. lia.
    + apply sizes; [assumption|]. cbn. apply fees_kept_nonneg; assumption.
  - (* Rest *)
    destruct H as [He Hr]. apply (fair_flags R s ms); try assumption; try lia.
    + rewrite pot_snoc, (fa_pot _ _ _ F). cbn. lia.
    + rewrite given_snoc, (fa_given _ _ _ F), H0. cbn. lia.
    + apply sizes; [assumption|]. cbn. lia.
Qed.

Lemma fair_plays R s0 ms s : well_formed R -> opening R s0 -> plays R s0 ms s -> fair R s ms.
Proof.
  intros HR Hop Hpl. induction Hpl as [|ms s1 m s2 _ IH Hm]; [|eapply fair_step; eassumption].
  destruct Hop as (H1 & H2 & H3 & H4 & H5 & H6 & H7 & H8).
  assert (Hno : forall x, seated s0 x -> False).
  { intros x [[a Ha]|Hg]; [rewrite H1, lookup_empty in Ha; discriminate|rewrite H2 in Hg; inversion Hg]. }
  apply fair_open; try assumption.
  - intros x Hx. destruct (Hno x Hx).
  - intros x Hx. destruct (Hno x Hx).
  - unfold raised, all. rewrite H1, H2, !msum_empty. reflexivity.
  - reflexivity.
  - intros m Hm. inversion Hm.
Qed.

(** ** C104 *)

(** However a sale is played, with any number of buyers and in any order: no move has a negative
    amount; while the sale is open the pot holds all that was paid, and once it is over at least what
    is owed to the buyers and the creator; and what was given out and is still owed in tokens is never
    more than the supply. *)
Theorem C104_rules_are_solvent R s0 ms s :
  well_formed R -> opening R s0 -> plays R s0 ms s ->
  (forall m, m ∈ ms -> 0 <= size m) /\
  (sl_now s < sl_end s -> pot ms = raised s + all sx_fee s /\ given ms = 0) /\
  (sl_end s <= sl_now s ->
    0 <= owed_money R s <= pot ms /\
    0 <= owed_tokens R s /\ given ms + owed_tokens R s <= over_tiers R (fun _ t => ti_supply t)).
Proof.
  intros HR Hop Hpl. pose proof (fair_plays _ _ _ _ HR Hop Hpl) as F.
  pose proof (fa_caps _ _ _ F) as Hcap. pose proof (fa_sane _ _ _ F) as Hs.
  split; [apply (fa_size _ _ _ F)|]. split.
  { intros Ho. destruct (fa_early _ _ _ F Ho) as (H1 & Hb). destruct (fa_not _ _ _ F) as (H2 & H3 & Hg); [intros [He _]; lia|].
    rewrite (fa_pot _ _ _ F), (fa_given _ _ _ F), H1, H2, H3.
    rewrite (all_ext (back_part R s) (fun _ => 0)) by (intros x Hin; unfold back_part; rewrite (Hb x Hin); reflexivity).
    rewrite (all_ext sx_got (fun _ => 0)) by (intros x Hin; apply Hg, Hin). rewrite !all_zero. lia. }
  intros Hend.
  assert (Hmb : forall x, seated s x -> 0 <= (if sx_back x then 0 else money_back R s x)).
  { intros x Hx. destruct (sx_back x); [lia|]. apply money_back_nonneg; assumption. }
  assert (Hlive : 0 <= msum (fun _ x => if sx_back x then 0 else money_back R s x) (sl_seats s) <=
    all (money_back R s) s - all (back_part R s) s).
  { split.
    - apply msum_nonneg. intros a x Hx. apply Hmb. left. eauto.
    - pose proof (all_live _ s Hmb) as Hl.
      assert (all (fun x => (if sx_back x then 0 else money_back R s x) + back_part R s x) s = all (money_back R s) s) as He.
      { apply all_ext. intros x _. unfold back_part. destruct (sx_back x); lia. }
      rewrite (all_add (fun x => if sx_back x then 0 else money_back R s x) (back_part R s)) in He.
      cbn beta in Hl, He. lia. }
  pose proof (raised_nonneg R s Hs) as Hr0. pose proof (fees_kept_nonneg R s Hcap Hs) as Hk0.
  pose proof (left_nonneg R s HR Hs) as Hl0.
  assert (Hsup : 0 <= over_tiers R (fun _ t => ti_supply t)).
  { rewrite <- (imap_zero (ru_tiers R)). apply imap_le. intros i t Ht. apply HR in Ht. lia. }
  unfold owed_money, owed_tokens. destruct (Z.ltb_spec (raised s) (ru_min R)) as [Hf|Hok].
  - destruct (fa_not _ _ _ F) as (H2 & H3 & Hg); [intros [_ He]; lia|].
    pose proof (fa_pot _ _ _ F) as Hp. pose proof (fa_given _ _ _ F) as Hgv. rewrite H2 in Hp. rewrite H3 in Hgv.
    rewrite (all_ext sx_got (fun _ => 0)) in Hgv by (intros x Hin; apply Hg, Hin). rewrite all_zero in Hgv.
    rewrite (all_ext (money_back R s) (fun x => sx_paid x + sx_fee x)) in Hlive.
    + rewrite all_add in Hlive. fold (raised s) in Hlive. rewrite (proj2 (Z.ltb_lt _ _) Hf) in Hp, Hgv.
      destruct (sl_took s); lia.
    + intros x _. unfold money_back. destruct (Z.ltb_spec (raised s) (ru_min R)); lia.
  - assert (Hsu : is_success R s) by (split; assumption).
    pose proof (fa_pot _ _ _ F) as Hp. pose proof (fa_given _ _ _ F) as Hgv.
    rewrite (proj2 (Z.ltb_ge _ _) Hok) in Hp, Hgv.
    pose proof (money_covered R s Hs Hok) as Hmc. pose proof (tokens_covered R s HR Hs) as Htc.
    split; [destruct (sl_took s), (sl_fees s); lia|].
    set (due := fun x => match ru_tiers R !! sx_tier x with Some t => tokens_in_full R s x t - sx_got x | None => 0 end).
    assert (Hdue : forall x, seated s x -> 0 <= due x /\ due x + sx_got x = in_full R s x).
    { intros x Hx. unfold due, in_full. destruct (lookup_lt_is_Some_2 _ _ (proj1 (Hs x Hx))) as [t Ht]. rewrite Ht.
      pose proof (fa_got _ _ _ F Hsu x t Hx Ht). pose proof (by_now_bounds R s HR Hs x t Hx Ht). lia. }
    assert (H0 : 0 <= msum (fun _ x => due x) (sl_seats s)).
    { apply msum_nonneg. intros a x Hx. apply Hdue. left. eauto. }
    assert (H1 : msum (fun _ x => due x) (sl_seats s) <= all due s) by (apply all_live; intros x Hx; apply Hdue, Hx).
    assert (H2 : all (fun x => due x + sx_got x) s = all (in_full R s) s) by (apply all_ext; intros x Hx; apply Hdue, Hx).
    rewrite (all_add due sx_got) in H2.
    change (msum (fun _ x => due x) (sl_seats s)) with (msum (fun _ => due) (sl_seats s)) in H0, H1.
    split; [destruct (sl_rest s); lia|]. destruct (sl_rest s), (sl_took s); lia.
Qed.

(** Nothing is overdrawn. *)
Corollary C104_never_overdrawn R s0 ms s :
  well_formed R -> opening R s0 -> plays R s0 ms s ->
  0 <= pot ms /\ 0 <= given ms <= over_tiers R (fun _ t => ti_supply t).
Proof.
  intros HR Hop Hpl. destruct (C104_rules_are_solvent _ _ _ _ HR Hop Hpl) as (Hz & Ho & He).
  pose proof (fair_plays _ _ _ _ HR Hop Hpl) as F.
  assert (Hg : 0 <= given ms).
  { apply lsum_nonneg. intros m Hm. specialize (Hz m Hm). destruct m; cbn in *; lia. }
  assert (Hsup : 0 <= over_tiers R (fun _ t => ti_supply t)).
  { rewrite <- (imap_zero (ru_tiers R)). apply imap_le. intros i t Ht. apply HR in Ht. lia. }
  destruct (Z.lt_ge_cases (sl_now s) (sl_end s)) as [Hl|Hl]; [|specialize (He Hl); lia].
  destruct (Ho Hl) as (-> & E). pose proof (raised_nonneg R s (fa_sane _ _ _ F)).
  assert (0 <= all sx_fee s); [|lia]. apply all_nonneg. intros x Hx. apply (fa_sane _ _ _ F x Hx).
Qed.

Section WithCrypto.
Context `{Crypto}.

(** The rules of every presale make sense, so the above applies to the moves made in it. *)
Theorem C104_rules_make_sense w k p : reachable w -> w_presales w !! k = Some p -> well_formed (rules_of p).
Proof.
  intros Hw Hp. pose proof (q_cfg _ _ _ (i_presales w (reachable_inv w Hw) k p Hp)) as Hc.
  split; [apply (c_bps _ _ Hc)|]. split; [apply (c_dur _ _ Hc)|]. split.
  - intros price Hk. apply (kind_price k p Hc) in Hk as [Hm ->]. apply (c_price _ _ Hc Hm).
  - intros i t Ht. cbn [rules_of ru_tiers] in Ht. rewrite list_lookup_fmap in Ht.
    destruct (p_regs p !! i) as [r|] eqn:Hr; [|discriminate]. injection Ht as <-. cbn.
    destruct (c_regs _ _ Hc i r Hr) as [(_ & H1 & _ & H2 & H3)|(_ & ->)]; [lia|cbn; lia].
Qed.

Lemma pot_amounts ms : pot ms = lsum (amount KDeposit) ms - lsum (amount KBack) ms - lsum (amount KRefund) ms -
  lsum (amount KRaise) ms - lsum (amount KFees) ms.
Proof. induction ms as [|m ms IH]; [reflexivity|]. unfold pot in *. destruct m; cbn; lia. Qed.
Lemma given_amounts ms : given ms = lsum (amount KClaim) ms + lsum (amount KReturned) ms + lsum (amount KUnsold) ms.
Proof. induction ms as [|m ms IH]; [reflexivity|]. unfold given in *. destruct m; cbn; lia. Qed.

(** So for the program: what it took in for a presale covers what it paid out and, once the sale is
    over, what the rules still owe; likewise for the tokens it was funded with. *)
Theorem C104_presales_are_solvent l k p :
  w_presales (run genesis l) !! k = Some p ->
  exists s, shows (run genesis l) k p s /\
    let total c := lifetime (flow k c) genesis l in
    let money := total KDeposit - total KBack - total KRefund - total KRaise - total KFees in
    let out := total KClaim + total KReturned + total KUnsold in
    0 <= money /\ 0 <= out <= total KFunding /\
    (p_end p <= w_now (run genesis l) ->
      owed_money (rules_of p) s <= money /\ out + owed_tokens (rules_of p) s <= total KFunding).
Proof.
  intros Hp. destruct (C102_plays_by_the_rules l k p Hp) as (s0 & ms & s & Hop & Hpl & Hsh & Hfund & Hfl).
  assert (HR : well_formed (rules_of p)) by (apply (C104_rules_make_sense (run genesis l) k); [exists l; reflexivity|assumption]).
  pose proof (C104_rules_are_solvent _ _ _ _ HR Hop Hpl) as (_ & _ & Hov).
  pose proof (C104_never_overdrawn _ _ _ _ HR Hop Hpl) as Hno.
  rewrite pot_amounts, given_amounts in *. exists s. split; [assumption|]. cbn beta zeta.
  rewrite Hfund, !Hfl by discriminate. split; [lia|]. split; [lia|].
  intros He. rewrite <- (sh_end _ _ _ _ Hsh), <- (sh_now _ _ _ _ Hsh) in He. specialize (Hov He). lia.
Qed.

End WithCrypto.

(** * Examples *)

#[local] Existing Instance toy.

Lemma totals_are k l a b c d e f g h i : totals k l = [a; b; c; d; e; f; g; h; i] ->
  lifetime (flow k KDeposit) genesis l = b /\ lifetime (flow k KBack) genesis l = c /\
  lifetime (flow k KRefund) genesis l = d /\ lifetime (flow k KClaim) genesis l = e /\
  lifetime (flow k KRaise) genesis l = f /\ lifetime (flow k KReturned) genesis l = g /\
  lifetime (flow k KFees) genesis l = h /\ lifetime (flow k KUnsold) genesis l = i.
Proof. intros Ht. unfold totals in Ht. cbn [map] in Ht. injection Ht as _ E1 E2 E3 E4 E5 E6 E7 E8. repeat split; assumption. Qed.

(** A play made by the program, with what is in the pot and what was given out. *)
Lemma play_of l k p a b c d e f g h i : w_presales (run genesis l) !! k = Some p ->
  totals k l = [a; b; c; d; e; f; g; h; i] ->
  exists s0 ms s, well_formed (rules_of p) /\ opening (rules_of p) s0 /\ plays (rules_of p) s0 ms s /\
    pot ms = b - c - d - f - h /\ given ms = e + g + i.
Proof.
  intros Hp Ht. destruct (totals_are _ _ _ _ _ _ _ _ _ _ _ Ht) as (E1 & E2 & E3 & E4 & E5 & E6 & E7 & E8).
  destruct (C102_plays_by_the_rules l k p Hp) as (s0 & ms & s & Hop & Hpl & Hsh & Hfund & Hfl).
  exists s0, ms, s. split; [apply (C104_rules_make_sense (run genesis l) k); [exists l; reflexivity|assumption]|].
  split; [assumption|]. split; [assumption|]. rewrite pot_amounts, given_amounts, <- !Hfl by discriminate. lia.
Qed.

(** The presale of [pr_done], wound up: of 1617 paid in, 3 are left by rounding, and 2 of 5700 tokens. *)
Example C104_example : exists p s0 ms s, well_formed (rules_of p) /\ opening (rules_of p) s0 /\
  plays (rules_of p) s0 ms s /\ pot ms = 3 /\ given ms = 5698.
Proof.
  assert (Ht : totals k1 pr_done = [5700; 1617; 50; 553; 5698; 1000; 0; 11; 0]) by (vm_compute; reflexivity).
  assert (Hn : is_Some (w_presales (run genesis pr_done) !! k1)) by (vm_compute; eauto).
  destruct Hn as [p Hp]. destruct (play_of _ _ _ _ _ _ _ _ _ _ _ _ Hp Ht) as (s0 & ms & s & Hex).
  exists p, s0, ms, s. exact Hex.
Qed.
(** A failed presale in which the creator took the tokens back before all buyers were refunded. *)
Example C104_example_failed : exists p s0 ms s, well_formed (rules_of p) /\ opening (rules_of p) s0 /\
  plays (rules_of p) s0 ms s /\ pot ms = 103 /\ given ms = 3000.
Proof.
  assert (Ht : totals k1 ff_paid = [3000; 411; 0; 308; 0; 0; 3000; 0; 0]) by (vm_compute; reflexivity).
  assert (Hn : is_Some (w_presales (run genesis ff_paid) !! k1)) by (vm_compute; eauto).
  destruct Hn as [p Hp]. destruct (play_of _ _ _ _ _ _ _ _ _ _ _ _ Hp Ht) as (s0 & ms & s & Hex).
  exists p, s0, ms, s. exact Hex.
Qed.
