(** C25, C36, C37: which configurations, mints and account lists are accepted. *)
From Coq Require Import Lia.
From Verif Require Import Base Math State Handlers Token World Instr Exec Tactics Sums Spec Arith
  TokenFacts Inv Acct Funs Steps Init Preserve Reach Did Trans Flow Scenario P_Solvency P_History
  P_Payout P_Arith P_Deposit.

(** * C25: the documented constraints *)

Definition day : Z := 86400.
Definition year : Z := 365 * day.

(** The arguments are integers of their declared width. *)
Definition typed (a : init_args) : Prop :=
  let pa := ia_params a in let lk := ia_locked a in
  (0 <= pa_max_cap pa <= U64MAX /\ 0 <= pa_min_cap pa <= U64MAX /\ 0 <= pa_start pa <= U64MAX /\
   0 <= pa_end pa <= U64MAX /\ 0 <= pa_wl pa < 256 /\ 0 <= pa_mode pa < 256 /\
   0 <= pa_unsold pa < 256 /\ 0 <= pa_disable_early pa < 256) /\
  (0 <= lv_bps lk < 65536 /\ 0 <= lv_lock lk <= U64MAX /\ 0 <= lv_vest lk <= U64MAX /\
   0 <= lv_imm_ts lk <= U64MAX /\ forall b, b ∈ lv_padding lk -> 0 <= b < 256) /\
  forall x, x ∈ ia_regs a -> 0 <= ra_min x <= U64MAX /\ 0 <= ra_max x <= U64MAX /\
    0 <= ra_supply x <= U64MAX /\ 0 <= ra_fee_bps x < 65536.

(** Lock and vesting: either everything zero (nothing locked), or a schedule shorter than ten
    years; all released at once leaves nothing to lock or vest, otherwise there is something to
    lock or vest; the immediate part is released between the end of the presale and the end of
    vesting (and exactly at the end of the presale when there is nothing to choose). *)
Definition good_lock (end_ : Z) (lk : locked_args) : Prop :=
  (lv_bps lk = 0 /\ lv_lock lk = 0 /\ lv_vest lk = 0 /\ lv_imm_ts lk = 0 /\
   forall b, b ∈ lv_padding lk -> b = 0) \/
  (lv_lock lk + lv_vest lk < 10 * year /\ lv_bps lk <= 10000 /\
   (lv_bps lk = 10000 -> lv_lock lk = 0 /\ lv_vest lk = 0) /\
   (lv_bps lk < 10000 -> 0 < lv_lock lk + lv_vest lk) /\
   end_ + lv_lock lk + lv_vest lk <= U64MAX /\
   (lv_imm_ts lk = 0 \/
    (end_ <= lv_imm_ts lk /\
     (lv_bps lk = 0 \/ lv_bps lk = 10000 -> lv_imm_ts lk = end_) /\
     lv_imm_ts lk <= end_ + lv_lock lk + lv_vest lk))).

(** Everything that is checked without looking at the price. *)
Definition good_terms (a : init_args) (now : Z) : Prop :=
  let pa := ia_params a in
  let start := Z.max (pa_start pa) now in
  0 < pa_min_cap pa <= pa_max_cap pa /\
  (60 <= pa_end pa - start <= 30 * day /\ start - now <= 30 * day) /\
  (pa_wl pa <= 2 /\ pa_mode pa <= 2 /\ pa_disable_early pa <= 1) /\
  (1 <= Z.of_nat (length (ia_regs a)) <= 5 /\
   (1 < Z.of_nat (length (ia_regs a)) -> pa_wl pa <> 0) /\
   lsum ra_supply (ia_regs a) <= U64MAX /\
   forall x, x ∈ ia_regs a -> ra_min x <= ra_max x /\ 0 < ra_max x <= pa_max_cap pa /\
     0 < ra_supply x /\ ra_fee_bps x <= 5000) /\
  good_lock (pa_end pa) (ia_locked a).

(** The buyer limits that go with the sale mode; [price] only matters at a fixed price. *)
Definition good_mode (a : init_args) (price : Z) : Prop :=
  let pa := ia_params a in
  (pa_mode pa = 0 ->
    bought price (pa_max_cap pa) <= lsum ra_supply (ia_regs a) /\
    bought price (pa_min_cap pa) < bought price (pa_max_cap pa) /\
    forall x, x ∈ ia_regs a -> 0 < bought price (ra_min x)) /\
  (pa_wl pa <> 0 -> forall x, x ∈ ia_regs a ->
    ra_max x = pa_max_cap pa /\
    ra_min x = if pa_mode pa =? 0 then cost price 1 else 1).

Lemma u8_iff x : in_u8 x = true <-> 0 <= x < 256.
Proof. unfold in_u8. num. rewrite andb_true_iff, !Z.leb_le. lia. Qed.
Lemma u16_iff x : in_u16 x = true <-> 0 <= x < 65536.
Proof. unfold in_u16. num. rewrite andb_true_iff, !Z.leb_le. lia. Qed.
Lemma forallb_in {A} (f : A -> bool) l : forallb f l = true <-> forall x, x ∈ l -> f x = true.
Proof. rewrite forallb_forall. split; intros Hf x Hx; apply Hf, elem_of_list_In; assumption. Qed.

(** The decoded arguments are the typed ones. *)
Lemma typed_iff a : init_args_decode a = true <-> typed a.
Proof.
  unfold init_args_decode, presale_args_decode, locked_args_decode, typed.
  rewrite !andb_true_iff, !forallb_in, !in_u64_iff, !u8_iff, !u16_iff.
  assert (Hr : (forall x, x ∈ ia_regs a -> registry_args_decode x = true) <->
    (forall x, x ∈ ia_regs a -> 0 <= ra_min x <= U64MAX /\ 0 <= ra_max x <= U64MAX /\
    0 <= ra_supply x <= U64MAX /\ 0 <= ra_fee_bps x < 65536)).
  { split; intros Hx x Hi; specialize (Hx x Hi).
    - unfold registry_args_decode in Hx. rewrite !andb_true_iff, !in_u64_iff, u16_iff in Hx. tauto.
    - unfold registry_args_decode. rewrite !andb_true_iff, !in_u64_iff, u16_iff. tauto. }
  assert (Hp : (forall x, x ∈ lv_padding (ia_locked a) -> in_u8 x = true) <->
    (forall b, b ∈ lv_padding (ia_locked a) -> 0 <= b < 256)).
  { split; intros Hx x Hi; specialize (Hx x Hi); apply u8_iff; assumption. }
  rewrite Hr, Hp. tauto.
Qed.

Lemma require_iff b e : require b e = Ok tt <-> b = true.
Proof. split; [apply require_Ok|apply require_true]. Qed.
Lemma rbind_iff {A B} (r : res A) (f : A -> res B) b : rbind r f = Ok b <-> exists a, r = Ok a /\ f a = Ok b.
Proof. split; [apply rbind_Ok|]. intros (a & -> & Hb). exact Hb. Qed.
Lemma then_iff {B} (r : res unit) (f : res B) b : (let* _ := r in f) = Ok b <-> r = Ok tt /\ f = Ok b.
Proof. rewrite rbind_iff. split; [intros ([] & ?); assumption|]. intros ?. exists tt. assumption. Qed.

Lemma registries_iff a l : forall acc s,
  (forall x, x ∈ l -> 0 <= ra_supply x <= U64MAX) -> acc + lsum ra_supply l <= U128MAX -> 0 <= acc ->
  validate_registries_loop a l acc = Ok s <->
  s = acc + lsum ra_supply l /\ forall x, x ∈ l -> ra_min x <= ra_max x /\ 0 < ra_max x <= pa_max_cap a /\
     0 < ra_supply x /\ ra_fee_bps x <= 5000.
Proof.
  induction l as [|x l IH]; intros acc s Hs Hb Hacc; cbn in *.
  - split; [intros E; apply Ok_inj in E; split; [lia|intros ? Hx; inversion Hx]|].
    intros [-> _]. f_equal. lia.
  - assert (Hx : 0 <= ra_supply x <= U64MAX) by (apply Hs; left).
    assert (Hl : 0 <= lsum ra_supply l).
    { apply lsum_nonneg. intros y Hy. apply Hs. right. assumption. }
    rewrite then_iff, safe_add_le by lia. cbn [rbind].
    rewrite IH by (try lia; intros y Hy; apply Hs; right; assumption).
    unfold validate_registry, MAX_DEPOSIT_FEE_BPS. rewrite !then_iff, !require_iff, !Z.leb_le, !Z.ltb_lt.
    split.
    + intros [H1 [-> H2]]. split; [lia|]. intros y Hy. apply elem_of_cons in Hy as [->|Hy]; [lia|auto].
    + intros [-> H2]. split; [|split; [lia|intros y Hy; apply H2; right; assumption]].
      specialize (H2 x (elem_of_list_here _ _)). lia.
Qed.

Lemma wl_cases z : 0 <= z < 256 -> (exists m, wl_of_u8 z = Some m) <-> z <= 2.
Proof.
  intros Hz. unfold wl_of_u8.
  destruct (Z.eqb_spec z 0); [split; [lia|eauto]|].
  destruct (Z.eqb_spec z 1); [split; [lia|eauto]|].
  destruct (Z.eqb_spec z 2); [split; [lia|eauto]|].
  split; [intros [? ?]; discriminate|lia].
Qed.
Lemma mode_cases z : 0 <= z < 256 -> (exists m, mode_of_u8 z = Some m) <-> z <= 2.
Proof.
  intros Hz. unfold mode_of_u8.
  destruct (Z.eqb_spec z 0); [split; [lia|eauto]|].
  destruct (Z.eqb_spec z 1); [split; [lia|eauto]|].
  destruct (Z.eqb_spec z 2); [split; [lia|eauto]|].
  split; [intros [? ?]; discriminate|lia].
Qed.
Lemma bind_option {A B} (o : option A) e (r : res B) b :
  (let* _ := ok_or o e in r) = Ok b <-> (exists a, o = Some a) /\ r = Ok b.
Proof.
  destruct o; cbn [ok_or rbind].
  - split; [intros; split; [eauto|assumption]|tauto].
  - split; [discriminate|intros [[? ?] _]; discriminate].
Qed.

Lemma locked_iff lk end_ :
  0 <= end_ <= U64MAX ->
  0 <= lv_bps lk < 65536 -> 0 <= lv_lock lk <= U64MAX -> 0 <= lv_vest lk <= U64MAX ->
  0 <= lv_imm_ts lk <= U64MAX ->
  match locked_option lk with Some l => validate_locked l end_ | None => Ok tt end = Ok tt <-> good_lock end_ lk.
Proof.
  intros He Hb Hl Hv Hi. unfold good_lock, locked_option, year, day.
  match goal with |- match (if ?x then _ else _) with _ => _ end = _ <-> _ => destruct x eqn:Hd end.
  { rewrite !andb_true_iff, forallb_in, !Z.eqb_eq in Hd. destruct Hd as ((((H1 & H2) & H3) & H4) & H5).
    split; [|reflexivity]. intros _. left. repeat (split; [assumption|]). intros b Hbb. specialize (H5 b Hbb). lia. }
  assert (Hnz : ~ (lv_bps lk = 0 /\ lv_lock lk = 0 /\ lv_vest lk = 0 /\ lv_imm_ts lk = 0 /\
   forall b, b ∈ lv_padding lk -> b = 0)).
  { intros (E1 & E2 & E3 & E4 & Hp). apply not_true_iff_false in Hd. apply Hd.
    rewrite !andb_true_iff, forallb_in, !Z.eqb_eq. split; [tauto|].
    intros b Hbb. apply Z.eqb_eq. symmetry. apply Hp. assumption. }
  clear Hd.
  unfold validate_locked, MAXIMUM_LOCK_AND_VEST_DURATION, MAX_FEE_BASIS_POINTS.
  destruct (Z.le_gt_cases (lv_vest lk + lv_lock lk) U64MAX) as [Ht|Ht].
  2:{ unfold safe_add. rewrite (proj2 (Z.leb_gt _ _)) by assumption. cbn [rbind].
      split; [discriminate|]. intros [?|H2]; [contradiction|]. exfalso. num. lia. }
  rewrite safe_add_le by assumption. cbn [rbind]. rewrite !then_iff, !require_iff, Z.ltb_lt, Z.leb_le.
  destruct (Z.eqb_spec (lv_bps lk) 10000) as [E|E].
  - rewrite then_iff, require_iff, andb_true_iff, !Z.eqb_eq.
    assert (Hif : (if 0 <? lv_imm_ts lk then require (lv_imm_ts lk =? end_) InvalidLockVestingInfo else Ok tt) = Ok tt
      <-> (lv_imm_ts lk = 0 \/ lv_imm_ts lk = end_)).
    { destruct (Z.ltb_spec 0 (lv_imm_ts lk)); [rewrite require_iff, Z.eqb_eq; lia|]. split; [lia|reflexivity]. }
    rewrite Hif. clear Hif. split; [intros; right|intros [?|?]; [contradiction|]]; lia.
  - rewrite then_iff, require_iff, orb_true_iff, !Z.ltb_lt. unfold vest_lock_timings.
    destruct (Z.le_gt_cases (end_ + lv_lock lk + lv_vest lk) U64MAX) as [Hv2|Hv2].
    + rewrite !safe_add_le by lia. cbn [rbind]. rewrite safe_add_le by lia. cbn [rbind].
      assert (Hif : (if 0 <? lv_imm_ts lk
         then if lv_bps lk =? 0 then require (lv_imm_ts lk =? end_) InvalidLockVestingInfo
              else require ((end_ <=? lv_imm_ts lk) && (lv_imm_ts lk <=? end_ + lv_lock lk + lv_vest lk)) InvalidLockVestingInfo
         else Ok tt) = Ok tt
        <-> (lv_imm_ts lk = 0 \/ (lv_bps lk = 0 /\ lv_imm_ts lk = end_) \/
             (lv_bps lk <> 0 /\ end_ <= lv_imm_ts lk <= end_ + lv_lock lk + lv_vest lk))).
      { destruct (Z.ltb_spec 0 (lv_imm_ts lk)); [|split; [lia|reflexivity]].
        destruct (Z.eqb_spec (lv_bps lk) 0); rewrite require_iff, ?andb_true_iff, ?Z.eqb_eq, ?Z.leb_le; lia. }
      rewrite Hif. clear Hif. split; [intros; right|intros [?|?]; [contradiction|]]; lia.
    + split; [|intros [?|?]; [contradiction|lia]]. intros (_ & _ & _ & Hx). exfalso.
      bi Hx y Hy. bi Hy vs Hvs. apply safe_add_Ok in Hvs as [-> _]. bi Hy ve Hve. apply safe_add_Ok in Hve as [-> Hve]. lia.
Qed.

(** [InitializePresaleArgs::validate] accepts exactly the good terms. *)
Theorem C25_validate_iff a now :
  typed a -> 0 <= now -> validate_init_args a now = Ok tt <-> good_terms a now.
Proof.
  intros (Hp & Hl & Hr) Hnow. unfold validate_init_args, good_terms. cbv zeta.
  destruct Hp as (P1 & P2 & P3 & P4 & P5 & P6 & P7 & P8). destruct Hl as (L1 & L2 & L3 & L4 & _).
  rewrite !then_iff. rewrite locked_iff by assumption.
  assert (Hargs : validate_presale_args (ia_params a) now = Ok tt <->
    0 < pa_min_cap (ia_params a) <= pa_max_cap (ia_params a) /\
    (60 <= pa_end (ia_params a) - Z.max (pa_start (ia_params a)) now <= 30 * day /\
     Z.max (pa_start (ia_params a)) now - now <= 30 * day) /\
    (pa_wl (ia_params a) <= 2 /\ pa_mode (ia_params a) <= 2 /\ pa_disable_early (ia_params a) <= 1)).
  { unfold validate_presale_args, start_time_without_going_backwards, day.
    unfold MINIMUM_PRESALE_DURATION, MAXIMUM_PRESALE_DURATION, MAXIMUM_DURATION_UNTIL_PRESALE.
    set (st := Z.max (pa_start (ia_params a)) now). assert (Hst : now <= st) by lia. clearbody st.
    rewrite !then_iff, !require_iff, !Z.leb_le, !Z.ltb_lt.
    destruct (Z.lt_ge_cases st (pa_end (ia_params a))) as [Hlt|Hge]; [|split; [intros (_ & _ & ? & _); lia|lia]].
    rewrite safe_sub_le by lia. cbn [rbind]. rewrite then_iff, require_iff, andb_true_iff, !Z.leb_le.
    rewrite safe_sub_le by lia. cbn [rbind]. rewrite then_iff, require_iff, Z.leb_le.
    rewrite !bind_option, require_iff. rewrite wl_cases, mode_cases by assumption.
    unfold is_bool_u8. rewrite orb_true_iff, !Z.eqb_eq. lia. }
  rewrite Hargs. clear Hargs.
  assert (Hregs : pa_wl (ia_params a) <= 2 -> validate_presale_registries (ia_params a) (ia_regs a) = Ok tt <->
    (1 <= Z.of_nat (length (ia_regs a)) <= 5 /\
     (1 < Z.of_nat (length (ia_regs a)) -> pa_wl (ia_params a) <> 0) /\
     lsum ra_supply (ia_regs a) <= U64MAX /\
     forall x, x ∈ ia_regs a -> ra_min x <= ra_max x /\ 0 < ra_max x <= pa_max_cap (ia_params a) /\
       0 < ra_supply x /\ ra_fee_bps x <= 5000)).
  { intros Hwl. unfold validate_presale_registries, MAX_PRESALE_REGISTRY_COUNT.
    rewrite then_iff, require_iff, andb_true_iff, Z.ltb_lt, Z.leb_le.
    destruct (Z.le_gt_cases (Z.of_nat (length (ia_regs a))) 5) as [H5|H5]; [|split; [lia|intros [? _]; lia]].
    assert (Hsum : 0 <= lsum ra_supply (ia_regs a) <= 5 * U64MAX).
    { split; [apply lsum_nonneg; intros x Hx; apply Hr in Hx; lia|].
      assert (Hgen : forall l, (forall x, x ∈ l -> 0 <= ra_supply x <= U64MAX) ->
        lsum ra_supply l <= Z.of_nat (length l) * U64MAX).
      { induction l as [|x l IH]; intros Hx; cbn [lsum length]; [lia|].
        rewrite Nat2Z.inj_succ. specialize (IH ltac:(intros y Hy; apply Hx; right; assumption)).
        specialize (Hx x (elem_of_list_here _ _)). lia. }
      specialize (Hgen (ia_regs a) ltac:(intros x Hx; apply Hr in Hx; lia)).
      num. nia. }
    rewrite rbind_iff.
    assert (Hloop := fun s => registries_iff (ia_params a) (ia_regs a) 0 s
      ltac:(intros x Hx; apply Hr in Hx; lia) ltac:(num; lia) ltac:(lia)).
    assert (Hwlif : (if 1 <? Z.of_nat (length (ia_regs a))
       then let* wl := cast_wl (pa_wl (ia_params a)) in require (is_permissioned wl) MultiplePresaleRegistriesNotAllowed
       else Ok tt) = Ok tt <-> (1 < Z.of_nat (length (ia_regs a)) -> pa_wl (ia_params a) <> 0)).
    { destruct (Z.ltb_spec 1 (Z.of_nat (length (ia_regs a)))); [|split; [lia|reflexivity]].
      unfold cast_wl. destruct (proj2 (wl_cases _ P5) Hwl) as [m Hm]. rewrite Hm. cbn [ok_or rbind].
      rewrite require_iff. unfold wl_of_u8 in Hm.
      destruct (Z.eqb_spec (pa_wl (ia_params a)) 0) as [E|E].
      - injection Hm as <-. cbn. split; [discriminate|]. intros Hf. exfalso. apply Hf; [assumption|assumption].
      - destruct (_ =? 1); [injection Hm as <-; cbn; split; [intros _ _; exact E|reflexivity]|].
        destruct (_ =? 2); [injection Hm as <-; cbn; split; [intros _ _; exact E|reflexivity]|discriminate]. }
    split.
    - intros (H1 & s & Hs & Hrest). apply Hloop in Hs as [-> Hall]. rewrite !then_iff, !require_iff, Z.leb_le, Z.ltb_lt, Hwlif in Hrest.
      split; [lia|]. split; [apply Hrest|]. split; [lia|assumption].
    - intros (H1 & H2 & H3 & H4). split; [lia|]. exists (lsum ra_supply (ia_regs a)).
      split; [apply Hloop; split; [lia|assumption]|].
      rewrite !then_iff, !require_iff, Z.leb_le, Z.ltb_lt, Hwlif. split; [assumption|]. split; [|assumption].
      destruct (ia_regs a) as [|x l]; [cbn in H1; lia|]. cbn [lsum].
      assert (0 <= lsum ra_supply l).
      { apply lsum_nonneg. intros y Hy. assert (y ∈ x :: l) as Hy' by (right; assumption). apply H4 in Hy'. lia. }
      specialize (H4 x (elem_of_list_here _ _)). lia. }
  split.
  - intros (H1 & H2 & H3). split; [apply H1|]. split; [apply H1|]. split; [apply H1|].
    split; [|assumption]. apply Hregs; [apply H1|assumption].
  - intros (H1 & H2 & H3 & H4 & H5). split; [auto|]. split; [|assumption]. apply Hregs; [apply H3|assumption].
Qed.

(** * The instruction accepts every such configuration *)

Lemma sum_supplies_live l : forall acc,
  (forall x, x ∈ l -> 0 <= ra_supply x) -> 0 <= acc -> acc + lsum ra_supply l <= U64MAX ->
  sum_supplies acc l = Ok (acc + lsum ra_supply l).
Proof.
  induction l as [|x l IH]; intros acc Hx H0 Hs; cbn in *; [f_equal; lia|].
  assert (0 <= ra_supply x) by (apply Hx; left).
  assert (0 <= lsum ra_supply l) by (apply lsum_nonneg; intros y Hy; apply Hx; right; assumption).
  rewrite safe_add_le by lia. cbn [rbind]. rewrite IH; [f_equal; lia|intros y Hy; apply Hx; right; assumption|lia|lia].
Qed.

Lemma slots_init l r : (length l <= 5)%nat -> (forall x, x ∈ l -> 0 < ra_supply x) -> r ∈ slots l ->
  (exists x, x ∈ l /\ r = reg_init x /\ reg_uninit r = false) \/ reg_uninit r = true.
Proof.
  intros Hl Hx Hr. apply elem_of_list_lookup_1 in Hr as [i Hi].
  apply slots_lookup in Hi as [(x & Hi & -> & _)|[_ ->]]; [| |assumption].
  - left. exists x. apply elem_of_list_lookup_2 in Hi. split; [assumption|]. split; [reflexivity|].
    specialize (Hx x Hi). unfold reg_uninit. cbn. lia.
  - right. reflexivity.
Qed.

Lemma dynamic_caps_live mx l :
  (forall r, r ∈ l -> reg_uninit r = false -> r_min_cap r = 1 /\ r_max_cap r = mx) ->
  enforce_dynamic_caps mx l = Ok tt.
Proof.
  induction l as [|r l IH]; intros Hr; cbn; [reflexivity|].
  rewrite IH by (intros y Hy; apply Hr; right; assumption).
  destruct (reg_uninit r) eqn:Hu; [reflexivity|]. destruct (Hr r (elem_of_list_here _ _) Hu) as [-> ->].
  rewrite require_true; [reflexivity|]. rewrite !Z.eqb_refl. reflexivity.
Qed.

Lemma fixed_regs_live q mx perm l :
  0 < q ->
  (forall r, r ∈ l -> reg_uninit r = false -> 0 <= r_min_cap r <= r_max_cap r /\ r_max_cap r <= U64MAX /\
    0 < bought q (r_min_cap r) /\ bought q (r_max_cap r) <= U64MAX /\
    (perm = true -> r_min_cap r = cost q 1 /\ r_max_cap r = mx)) ->
  fixed_check_registries q mx perm l = Ok tt.
Proof.
  intros Hq. induction l as [|r l IH]; intros Hr; cbn [fixed_check_registries]; [reflexivity|].
  rewrite IH by (intros y Hy; apply Hr; right; assumption).
  destruct (reg_uninit r) eqn:Hu; [reflexivity|].
  destruct (Hr r (elem_of_list_here _ _) Hu) as (H1 & H2 & H3 & H4 & H5).
  assert (Hmono : bought q (r_min_cap r) <= bought q (r_max_cap r)).
  { unfold bought. apply Z.div_le_mono; [lia|]. unfold scale. lia. }
  unfold ensure_token_buyable. rewrite !token_bought_ok by lia. cbn [rbind].
  do 2 (rewrite require_true by (apply Z.ltb_lt; lia); cbn [rbind];
    rewrite require_true by (apply Z.leb_le; lia); cbn [rbind]).
  destruct perm; [|reflexivity]. destruct (H5 eq_refl) as [H6 H7].
  unfold min_quote_amount_for_base_lamport. change SCALE_MULTIPLIER with scale.
  rewrite cost_ceil, Z.mul_1_l in H6. rewrite cast64_le by lia. cbn [rbind].
  rewrite !require_true by (apply Z.eqb_eq; lia). reflexivity.
Qed.

Lemma create_live w k a bmint qmint creator base now bp qp rem price :
  typed a -> 0 <= now -> good_terms a now -> good_mode a price ->
  (pa_mode (ia_params a) = 0 -> 0 < price /\ exists fk rest x,
     rem = fk :: rest /\ w_fixed w !! fk = Some x /\ x_presale x = k /\ x_qprice x = price) ->
  exists p, create_presale_vault w k a bmint qmint creator base now bp qp rem =
    Ok (p, if pa_mode (ia_params a) =? 0 then tail rem else rem).
Proof.
  intros (Hp & Hlk & Hr) Hnow (G1 & G2 & G3 & (G4 & G5 & G6 & G7) & G8) (M1 & M2) Hfx.
  destruct Hp as (P1 & P2 & P3 & P4 & P5 & P6 & P7 & P8). destruct Hlk as (L1 & L2 & L3 & L4 & _).
  assert (Hs0 : forall x, x ∈ ia_regs a -> 0 < ra_supply x) by (intros x Hx; apply G7 in Hx; lia).
  unfold create_presale_vault, presale_initialize.
  rewrite sum_supplies_live; [|intros x Hx; apply Hs0 in Hx; lia|lia|lia]. cbn [rbind].
  rewrite require_true by (apply Z.leb_le; unfold MAX_PRESALE_REGISTRY_COUNT; lia). cbn [rbind].
  assert (Hvl : exists o, match locked_option (ia_locked a) with
    | None => Ok (0, 0, 0, 0, 0, 0)
    | Some l =>
      let* '(vs, ve) := vest_lock_timings (pa_end (ia_params a)) (lv_lock l) (lv_vest l) in
      Ok (lv_lock l, lv_vest l, lv_bps l, lv_imm_ts l, vs, ve)
    end = Ok o).
  { unfold locked_option.
    match goal with |- context [if ?b then None else _] => destruct b eqn:Hd end; [eauto|].
    destruct G8 as [(E1 & E2 & E3 & E4 & E5)|G8].
    { exfalso. apply not_true_iff_false in Hd. apply Hd.
      rewrite !andb_true_iff, forallb_in, !Z.eqb_eq. split; [tauto|].
      intros b Hbb. apply Z.eqb_eq. symmetry. apply E5. assumption. }
    unfold vest_lock_timings. rewrite safe_add_le by lia. cbn [rbind]. rewrite safe_add_le by lia. cbn [rbind]. eauto. }
  destruct Hvl as [[[[[[lock vest] bps] imm] vs] ve] ->]. cbn [rbind].
  change (Z.to_nat MAX_PRESALE_REGISTRY_COUNT) with 5%nat. fold (slots (ia_regs a)).
  match goal with |- exists _, (let* h := get_handler ?p in _) = _ => set (p0 := p) end.
  assert (Hwl : exists wl, cast_wl (pa_wl (ia_params a)) = Ok wl /\
    (is_permissioned wl = true <-> pa_wl (ia_params a) <> 0)).
  { destruct (proj2 (wl_cases _ P5) ltac:(lia)) as [m Hm]. exists m. unfold cast_wl. rewrite Hm.
    split; [reflexivity|]. unfold wl_of_u8 in Hm.
    destruct (Z.eqb_spec (pa_wl (ia_params a)) 0) as [E|E]; [injection Hm as <-; cbn; split; [discriminate|contradiction]|].
    destruct (_ =? 1); [injection Hm as <-; cbn; split; auto|].
    destruct (_ =? 2); [injection Hm as <-; cbn; split; auto|discriminate]. }
  destruct Hwl as (wl & Hwl & Hperm).
  assert (Hdyn : pa_mode (ia_params a) <> 0 ->
    (if is_permissioned wl then enforce_dynamic_caps (p_max_cap p0) (p_regs p0) else Ok tt) = Ok tt).
  { intros Hm. destruct (is_permissioned wl) eqn:Hpm; [|reflexivity]. apply dynamic_caps_live.
    intros r Hin Hun. apply slots_init in Hin as [(x & Hx & -> & _)|Hin]; [|congruence|lia|assumption].
    destruct (M2 (proj1 Hperm eq_refl) x Hx) as [Hmax Hmin].
    rewrite (proj2 (Z.eqb_neq _ _)) in Hmin by assumption. cbn. auto. }
  unfold get_handler, cast_mode. change (p_mode p0) with (pa_mode (ia_params a)).
  destruct (proj2 (mode_cases _ P6) ltac:(lia)) as [md Hmd]. rewrite Hmd. cbn [ok_or rbind].
  unfold mode_of_u8 in Hmd.
  destruct (Z.eqb_spec (pa_mode (ia_params a)) 0) as [E|E].
  - injection Hmd as <-. destruct (Hfx E) as (Hq & fk & rest & x & -> & Hx & Hxk & Hxq).
    cbn [rbind handler_initialize]. cbv beta. rewrite Hx. cbn [ok_or rbind].
    rewrite require_true by (rewrite Hxk; apply beq_addr_refl). cbn [rbind].
    change (p_wl p0) with (pa_wl (ia_params a)). rewrite Hwl. cbn [rbind].
    change (p_max_cap p0) with (pa_max_cap (ia_params a)). change (p_min_cap p0) with (pa_min_cap (ia_params a)).
    change (p_regs p0) with (slots (ia_regs a)). change (p_supply p0) with (0 + lsum ra_supply (ia_regs a)).
    rewrite Hxq. destruct (M1 E) as (B1 & B2 & B3).
    rewrite fixed_regs_live; [cbn [rbind]|assumption|].
    + unfold ensure_enough_presale_supply, ensure_gap_between_min_and_max.
      rewrite !token_bought_ok by lia. cbn [rbind]. rewrite require_true by (apply Z.leb_le; lia). cbn [rbind].
      rewrite safe_sub_le by lia. cbn [rbind]. rewrite require_true by (apply Z.ltb_lt; lia). cbn [rbind tail].
      eauto.
    + intros r Hin Hun. apply slots_init in Hin as [(y & Hy & -> & _)|Hin]; [|congruence|lia|assumption].
      pose proof (G7 y Hy) as Hg. pose proof (Hr y Hy) as Ht. cbn.
      assert (Hmono : bought price (ra_max y) <= bought price (pa_max_cap (ia_params a))).
      { unfold bought. apply Z.div_le_mono; [lia|]. unfold scale. lia. }
      split; [lia|]. split; [lia|]. split; [apply B3; assumption|]. split; [lia|].
      intros Hpm. destruct (M2 (proj1 Hperm Hpm) y Hy) as [? Hmin]. cbv iota in Hmin. auto.
  - specialize (Hdyn E).
    destruct (_ =? 1); [injection Hmd as <-|destruct (_ =? 2); [injection Hmd as <-|discriminate]];
    cbn [rbind handler_initialize]; change (p_wl p0) with (pa_wl (ia_params a)); rewrite Hwl; cbn [rbind];
      rewrite Hdyn; cbn [rbind]; eauto.
Qed.

(** The creator's side of the bargain: mints the program supports, a fresh address, signatures,
    and a token account from which [n] base tokens can be delivered. *)
Record fundable (w : world) (base bmint qmint pt payer : addr) (bm qm : mint) (accts : list addr)
    (h : henv) (n : Z) : Prop := {
  fu_base : is_wallet base = true;
  fu_payer : is_wallet payer = true;
  fu_fresh : w_presales w !! PPresale base bmint qmint = None /\
    w_tokens w !! PBaseVault (PPresale base bmint qmint) = None /\
    w_tokens w !! PQuoteVault (PPresale base bmint qmint) = None;
  fu_mints : w_mints w !! bmint = Some bm /\ w_mints w !! qmint = Some qm /\
    is_supported_mint bm = true /\ is_supported_mint qm = true;
  fu_src : exists s x, w_tokens w !! pt = Some s /\ t_mint s = bmint /\ t_owner s = payer /\
    t_frozen s = false /\ t_guard s = false /\ (forall d y, t_delegate s = Some (d, y) -> d <> payer) /\
    0 <= x <= t_amount s /\ n <= x - withheld bm x;
  fu_hook : hook_args bm TransferHookBase accts h
}.

(** What the account of a presale created with arguments [a] at time [t] (and, at a fixed price,
    with [price]) says for the rest of its life. *)
Record configured (a : init_args) (t price : Z) (p : presale) : Prop := {
  cg_caps : p_max_cap p = pa_max_cap (ia_params a) /\ p_min_cap p = pa_min_cap (ia_params a);
  cg_modes : p_mode p = pa_mode (ia_params a) /\ p_wl p = pa_wl (ia_params a) /\
    p_unsold p = pa_unsold (ia_params a);
  cg_start : p_start p = Z.max (pa_start (ia_params a)) t;
  cg_end : p_start p <= p_end p <= pa_end (ia_params a);
  cg_locked : p_lock p = lv_lock (ia_locked a) /\ p_vest p = lv_vest (ia_locked a) /\
    p_bps p = lv_bps (ia_locked a);
  cg_supply : p_supply p = lsum ra_supply (ia_regs a);
  cg_nreg : p_nreg p = Z.of_nat (length (ia_regs a));
  cg_regs : forall i x, ia_regs a !! i = Some x -> exists r, p_regs p !! i = Some r /\
    r_supply r = ra_supply x /\ r_min_cap r = ra_min x /\ r_max_cap r = ra_max x /\
    r_fee_bps r = ra_fee_bps x;
  cg_price : p_mode p = 0 -> p_raw0 p = price
}.

Lemma newly_configured w k bmint qmint creator base bp qp a p :
  newly w k bmint qmint creator base bp qp a p -> configured a (w_now w) (p_raw0 p) p.
Proof.
  intros Hn. destruct Hn. constructor; auto.
  - lia.
  - tauto.
  - intros i x Hi. exists (reg_init x). rewrite n_regs. split; [|cbn; auto].
    unfold slots. apply lookup_app_l_Some. rewrite list_lookup_fmap, Hi. reflexivity.
Qed.

Lemma newly_good w k bmint qmint creator base bp qp a p :
  (length (ia_regs a) <= 5)%nat -> newly w k bmint qmint creator base bp qp a p ->
  good_mode a (p_raw0 p) /\ (pa_mode (ia_params a) = 0 -> 0 < p_raw0 p).
Proof.
  intros Hl Hn. destruct Hn. rewrite <- n_mode. destruct n_cfg. unfold good_mode. cbv zeta.
  rewrite <- n_mode, <- n_wl, <- n_max, <- n_min, <- n_supply.
  assert (Hreg : forall x, x ∈ ia_regs a -> exists i, p_regs p !! i = Some (reg_init x) /\ Z.of_nat i < p_nreg p).
  { intros x Hx. apply elem_of_list_lookup_1 in Hx as [i Hi]. exists i. rewrite n_regs, n_nreg.
    split; [unfold slots; apply lookup_app_l_Some; rewrite list_lookup_fmap, Hi; reflexivity|].
    apply lookup_lt_Some in Hi. lia. }
  split; [split|].
  - intros Hm. destruct (c_price Hm) as (Hq & H1 & H2 & H3). split; [assumption|]. split; [assumption|].
    intros x Hx. destruct (Hreg x Hx) as (i & Hi & Hlt). apply (H3 i _ Hi Hlt).
  - intros Hw x Hx. destruct (Hreg x Hx) as (i & Hi & Hlt). rewrite cost_ceil, Z.mul_1_l. apply (c_permissioned Hw i _ Hi Hlt).
  - intros Hm. apply c_price. assumption.
Qed.

Section WithCrypto.
Context `{Crypto}.

(** Accepted arguments meet every constraint, and the new account records them. *)
Theorem C25_accepted_config w base bmint qmint pt creator payer bp qp a h w' l :
  reachable w -> step w (IInitPresale base bmint qmint pt creator payer bp qp a h) = Ok (w', l) ->
  typed a /\ good_terms a (w_now w) /\
  exists p, w_presales w' !! PPresale base bmint qmint = Some p /\ configured a (w_now w) (p_raw0 p) p /\
    p_end p = pa_end (ia_params a) /\ p_imm_ts p = lv_imm_ts (ia_locked a) /\
    p_owner p = creator /\ p_created p = w_now w /\ p_deposit p = 0 /\
    good_mode a (p_raw0 p) /\
    (pa_mode (ia_params a) = 0 -> 0 < p_raw0 p /\
      exists rest x, h_accounts h = PFixedArgs (PPresale base bmint qmint) :: rest /\
        w_fixed w !! PFixedArgs (PPresale base bmint qmint) = Some x /\ x_qprice x = p_raw0 p).
Proof.
  intros Hw Hs. pose proof (reachable_inv _ Hw) as Hi. cbn [step] in Hs.
  apply init_inv in Hs as (bm & qm & p & rest & hooks & rest' & pool & amount & w2 & fx & Hs). cbv zeta in Hs.
  destruct Hs as (Hd & Hnow & _ & _ & _ & _ & _ & _ & _ & _ & _ & Hval & _ & _ & Hc & _ & _ & _ & _ & _ & -> & _).
  pose proof (proj1 (typed_iff a) Hd) as Ht. pose proof (proj1 (C25_validate_iff a _ Ht Hnow) Hval) as Hg.
  split; [assumption|]. split; [assumption|]. exists p.
  destruct (init_newly _ _ _ _ _ _ _ _ _ _ _ _ Hi eq_refl Hd Hval Hc) as (Hn & Hrem & _).
  split; [cbn; apply lookup_insert|]. split; [eapply newly_configured; exact Hn|].
  destruct Hg as (_ & _ & _ & (Hlen & _) & _).
  assert (Hl5 : (length (ia_regs a) <= 5)%nat) by lia.
  destruct (newly_good _ _ _ _ _ _ _ _ _ _ Hl5 Hn) as [Hg1 Hg2].
  pose proof (n_mode _ _ _ _ _ _ _ _ _ _ Hn) as Hmd. pose proof (n_raw _ _ _ _ _ _ _ _ _ _ Hn) as Hraw.
  split; [apply (n_end _ _ _ _ _ _ _ _ _ _ Hn)|]. split; [apply (n_lock _ _ _ _ _ _ _ _ _ _ Hn)|].
  split; [apply (n_owner _ _ _ _ _ _ _ _ _ _ Hn)|]. split; [apply (n_created _ _ _ _ _ _ _ _ _ _ Hn)|].
  split; [apply (n_zero _ _ _ _ _ _ _ _ _ _ Hn)|]. split; [assumption|].
  intros Hm. split; [apply Hg2; assumption|]. rewrite Hm in Hmd. rewrite Hmd in Hraw.
  destruct Hraw as (x & Hx & _ & Hq & _). exists rest, x. split; [auto|]. auto.
Qed.

(** Every configuration meeting the constraints is accepted, if it can be funded and, at a fixed
    price, the price account comes first among the extra accounts. *)
Theorem C25_good_config_accepted w base bmint qmint pt creator payer a h bm qm price :
  reachable w -> typed a -> good_terms a (w_now w) -> good_mode a price ->
  (pa_mode (ia_params a) = 0 -> exists rest x,
     h_accounts h = PFixedArgs (PPresale base bmint qmint) :: rest /\
     w_fixed w !! PFixedArgs (PPresale base bmint qmint) = Some x /\ x_qprice x = price) ->
  fundable w base bmint qmint pt payer bm qm
    (if pa_mode (ia_params a) =? 0 then tail (h_accounts h) else h_accounts h) h (lsum ra_supply (ia_regs a)) ->
  exists w' l, step w (IInitPresale base bmint qmint pt creator payer (m_prog bm) (m_prog qm) a h) = Ok (w', l).
Proof.
  intros Hw Ht Hg Hgm Hfx [Hb Hpy (Hn1 & Hn2 & Hn3) (Hbm & Hqm & Hsb & Hsq) (s & x & Hs & Hsm & Hso & Hsf & Hsgu & Hsd & Hx & Hnet) Hh].
  pose proof (reachable_inv _ Hw) as Hi. pose proof (i_tokens _ Hi) as Hti.
  pose proof (proj1 (i_now _ Hi)) as Hnow.
  destruct (create_live w (PPresale base bmint qmint) a bmint qmint creator base (w_now w) (m_prog bm) (m_prog qm)
    (h_accounts h) price Ht Hnow Hg Hgm) as (p & Hp).
  { intros Hm. destruct (Hfx Hm) as (rest & y & H1 & H2 & H3).
    destruct (i_fixed _ Hi _ _ H2) as (E & Hq & _). injection E as E. split; [lia|]. eauto 10. }
  pose proof Hg as (_ & _ & _ & (Hlen & _ & Hsum & Hregs) & _).
  assert (Hsum0 : 0 <= lsum ra_supply (ia_regs a)) by (apply lsum_nonneg; intros y Hy; apply Hregs in Hy; lia).
  pose proof (tk_amount_u64 _ _ _ Hti Hs) as Hsu. pose proof (tk_fee _ Hti _ _ Hbm) as Hmf.
  destruct (C24_gross_amount bm (lsum ra_supply (ia_regs a)) Hmf ltac:(lia)) as (g & G1 & G2 & G3 & G4).
  specialize (G3 x ltac:(lia) ltac:(lia)). rewrite (proj2 (Z.leb_le _ _)) in G4 by lia.
  destruct (parse_live _ _ _ _ Hh) as (hooks & rest & Hparse & Hchk & Hhok). cbn [hooks_of] in Hchk.
  cbn [step]. unfold initialize_presale. cbv zeta.
  rewrite require_true; [|apply andb_true_intro; split; [apply typed_iff; assumption|eapply hook_args_decodes; exact Hh]].
  ok_bind. go_clock Hi. unfold get_mint. rewrite Hbm, Hqm. ok_bind.
  rewrite !signer_ok by assumption. ok_bind.
  rewrite Hn1, Hn2, Hn3. rewrite !require_true by (apply bool_decide_eq_true_2; reflexivity). ok_bind.
  rewrite (proj2 (C25_validate_iff a _ Ht Hnow) Hg). ok_bind.
  rewrite !require_true by assumption. ok_bind.
  fold (with_vaults (PPresale base bmint qmint) bmint qmint w).
  change (create_presale_vault (with_vaults (PPresale base bmint qmint) bmint qmint w)) with (create_presale_vault w).
  rewrite Hp. ok_bind.
  rewrite sum_supplies_live; [|intros y Hy; apply Hregs in Hy; lia|lia|lia]. ok_bind. rewrite Z.add_0_l.
  rewrite G4. ok_bind. rewrite Hparse. ok_bind.
  assert (Hne1 : PBaseVault (PPresale base bmint qmint) <> pt) by congruence.
  assert (Hne2 : PQuoteVault (PPresale base bmint qmint) <> pt) by congruence.
  assert (Hsv : w_tokens (with_vaults (PPresale base bmint qmint) bmint qmint w) !! pt = Some s).
  { unfold with_vaults. cbn. rewrite !lookup_insert_ne by assumption. assumption. }
  assert (Hbv : w_tokens (with_vaults (PPresale base bmint qmint) bmint qmint w) !! PBaseVault (PPresale base bmint qmint)
     = Some (new_vault bmint)).
  { unfold with_vaults. cbn. rewrite lookup_insert_ne by discriminate. apply lookup_insert. }
  rewrite (from_user_eq _ _ _ _ _ _ _ _ _ bm s (new_vault bmint)) by (assumption || reflexivity).
  rewrite Hchk. ok_bind.
  unfold tok_transfer, get_mint, get_token.
  change (w_mints (with_vaults (PPresale base bmint qmint) bmint qmint w)) with (w_mints w). rewrite Hbm. ok_bind.
  rewrite Hsv, Hbv. ok_bind.
  rewrite require_true by (apply bool_decide_eq_true_2; reflexivity). ok_bind.
  rewrite require_true by (rewrite Hsf; reflexivity). ok_bind.
  rewrite require_true by (apply Z.leb_le; lia). ok_bind.
  rewrite require_true by (rewrite Hsm; cbn; rewrite !beq_addr_refl; reflexivity). ok_bind.
  assert (Hau : tok_authorize bm s payer g = Ok (t_delegate s)).
  { unfold tok_authorize. rewrite Hso, beq_addr_refl, orb_true_r. cbn [require rbind].
    destruct (t_delegate s) as [[d y]|]; [|reflexivity].
    rewrite (proj2 (beq_addr_false d payer)); [reflexivity|]. eapply Hsd. reflexivity. }
  rewrite Hau. ok_bind.
  rewrite (proj2 (beq_addr_false pt (PBaseVault (PPresale base bmint qmint)))) by congruence.
  pose proof (tok_fee_range bm g Hmf ltac:(lia)) as Hgf.
  rewrite require_true by (apply Z.leb_le; cbn; lia). ok_bind.
  rewrite require_true; [ok_bind|destruct (has_transfer_hook_program bm); [rewrite Hhok; reflexivity|reflexivity]].
  destruct (locked_option (ia_locked a)); eauto.
Qed.

(** Every presale there ever is was created with a good configuration and still records it. *)
Theorem C25_always w k p :
  reachable w -> w_presales w !! k = Some p ->
  exists a t price, t <= w_now w /\ typed a /\ good_terms a t /\ good_mode a price /\ configured a t price p.
Proof.
  intros [l ->]. revert k p. induction l as [|o l IH] using rev_ind; intros k p Hp; [discriminate|].
  rewrite run_app in *. cbn in *. change (foldl exec genesis l) with (run genesis l) in *.
  assert (Hr : reachable (run genesis l)) by (exists l; reflexivity).
  pose proof (reachable_inv _ Hr) as Hi. pose proof (exec_now (run genesis l) o Hi) as Hnow.
  destruct (w_presales (run genesis l) !! k) as [q|] eqn:Hq.
  - destruct (IH k q Hq) as (a & t & price & H1 & H2 & H3 & H4 & H5). exists a, t, price.
    split; [lia|]. do 3 (split; [assumption|]).
    destruct (exec_moves _ o _ _ Hi Hq) as (p' & Hp' & Hm). assert (p' = p) as -> by congruence.
    assert (Hcp : cfg k p).
    { pose proof (inv_exec _ o Hi) as Hi'. apply (q_cfg _ _ _ (i_presales _ Hi' _ _ Hp)). }
    assert (Hend : p_end p <= p_end q).
    { destruct (mv_timing _ _ _ Hm) as [Ht|(Hlt & _ & _ & Ht)]; injection Ht as -> _ _ _; lia. }
    pose proof (mv_terms _ _ _ Hm) as Ht. unfold terms_of in Ht.
    pose proof (f_equal snd Ht) as Hregs. cbn in Hregs. injection Ht as E1 E2 E3 E4 E5 E6 E7 E8 E9 E10 E11 E12 E13 E14 E15 E16 E17 E18 E19 E20 E21 E22 E23 _.
    pose proof (c_time _ _ Hcp) as Htm.
    destruct H5. constructor.
    + lia.
    + lia.
    + congruence.
    + lia.
    + lia.
    + congruence.
    + congruence.
    + intros i x Hx. destruct (cg_regs0 i x Hx) as (r & Hri & Hrest).
      assert (Hl : map (fun r => (r_supply r, r_min_cap r, r_max_cap r, r_fee_bps r)) (p_regs p) !! i =
        Some (r_supply r, r_min_cap r, r_max_cap r, r_fee_bps r)).
      { rewrite Hregs. etransitivity; [apply list_lookup_fmap|]. rewrite Hri. reflexivity. }
      apply list_lookup_fmap_inv in Hl as (r' & Hrr & Hr'). injection Hrr as R1 R2 R3 R4.
      exists r'. split; [assumption|]. rewrite <- R1, <- R2, <- R3, <- R4. assumption.
    + intros E. etransitivity; [|apply cg_price0]; congruence.
  - unfold exec in Hp, Hnow |- *. destruct (step (run genesis l) o) as [[w' fx]|] eqn:Hs; [|congruence].
    destruct (does_presale _ _ _ _ k (step_does _ _ _ _ Hi Hs)) as
    [Hn|base bm0 qm0 pt cr pay bp qp a h0 p0 bm qm gross w1 lx Ho D Hnone Hn|owner idx cap p0 r Ho D Hn
    |qv qm ek pt payer pr mx h0 p0 p2 e r m amount fee gross w1 lx Ho D Hn
    |qv qm ek ot owner pr mx h0 p0 e r m amount w1 lx Ho D Hn
    |qv qm ek ot owner pr h0 p0 e r m w1 lx Ho D Hn|bv bm ek ot owner pr h0 p0 e r m w1 lx Ho D Hn
    |ek owner rr p0 e r Ho D Hn|ot owner pr h0 p0 m w1 lx Ho D Hn|qv qm rcv owner pr h0 p0 m w1 lx Ho D Hn
    |bv bm ct pr h0 p0 m w1 lx Ho D Hn].
    2:{ assert (k = PPresale base bm0 qm0) as -> by apply D. rewrite Ho in Hs.
        destruct (C25_accepted_config _ _ _ _ _ _ _ _ _ _ _ _ _ Hr Hs) as (H1 & H2 & p' & Hp' & H3 & _ & _ & _ & _ & _ & H4 & _).
        assert (p' = p) as -> by congruence.
        exists a, (w_now (run genesis l)), (p_raw0 p). auto. }
    1: congruence.
    all: destruct D; congruence.
Qed.
End WithCrypto.

(** * The hypotheses are met *)
#[local] Existing Instance toy.

Definition fx_before : list op := setup ++ [IInitFixedArgs k1 creator creator 0 fx_price].

(** The arguments of the fixed price scenario (2.5 quote per base token, mints with a transfer
    fee on the base token) satisfy everything, so [C25_good_config_accepted] applies. *)
Example C25_example :
  reachable (run genesis fx_before) /\ typed fx_args /\ good_terms fx_args 1000 /\
  w_now (run genesis fx_before) = 1000 /\ good_mode fx_args fx_price /\
  (exists x, w_fixed (run genesis fx_before) !! PFixedArgs k1 = Some x /\ x_qprice x = fx_price) /\
  exists bm qm, fundable (run genesis fx_before) base1 bmint qmint creator_b creator bm qm []
    (mkHenv [PFixedArgs k1] [] true) (lsum ra_supply (ia_regs fx_args)).
Proof.
  split; [apply reach|]. split; [apply typed_iff; vm_compute; reflexivity|].
  split; [apply C25_validate_iff; [apply typed_iff; vm_compute; reflexivity|lia|vm_compute; reflexivity]|].
  split; [vm_compute; reflexivity|]. split.
  { split; [|intros Hx; vm_compute in Hx; congruence]. intros _. split; [vm_compute; congruence|].
    split; [vm_compute; reflexivity|]. intros x Hx. apply elem_of_list_singleton in Hx as ->. vm_compute. reflexivity. }
  split; [eexists; split; vm_compute; reflexivity|].
  eexists _, _. constructor.
  - reflexivity.
  - reflexivity.
  - split; [vm_compute; reflexivity|]. split; vm_compute; reflexivity.
  - split; [vm_compute; reflexivity|]. split; [vm_compute; reflexivity|]. split; vm_compute; reflexivity.
  - exists (mkTok bmint creator 100000 false None false false), 1021. split; [vm_compute; reflexivity|].
    repeat (split; [reflexivity|]). split; [discriminate|]. split; vm_compute; [split; congruence|congruence].
  - reflexivity.
Qed.

(** A prorata presale with a whitelist whose registry maximum differs from the cap is not
    acceptable (and is refused), although everything else is fine. *)
Definition pr_bad : init_args :=
  mkInitArgs (mkPreArgs 1000 100 1000 2000 2 1 0 0) (mkLocked 2500 10 100 2000 [])
    [mkRegArgs 1 1000 5000 100; mkRegArgs 1 999 700 0].
Example C25_rejected_example :
  good_terms pr_bad 1000 /\ ~ (exists price, good_mode pr_bad price) /\
  ok_step (run genesis setup)
    (IInitPresale base1 bmint qmint creator_b creator creator Token2022 SplToken pr_bad noh) = false.
Proof.
  split; [apply C25_validate_iff; [apply typed_iff; vm_compute; reflexivity|lia|vm_compute; reflexivity]|].
  split; [|vm_compute; reflexivity]. intros (price & _ & Hx).
  destruct (Hx ltac:(vm_compute; congruence) (mkRegArgs 1 999 700 0)) as [Hm _].
  - right. left.
  - vm_compute in Hm. congruence.
Qed.

Example C25_always_example : exists p, w_presales w_fc_over !! k1 = Some p /\ p_end p < pa_end (ia_params fc_args).
Proof. eexists. split; vm_compute; reflexivity. Qed.
