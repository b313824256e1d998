(** What a successful [initialize_presale] did, and that it creates a well configured presale. *)
From Coq Require Import Lia.
From Verif Require Import Base Math State Handlers Token World Instr Exec Spec Tactics Sums Arith
  TokenFacts Inv Acct Funs Steps.

Definition with_vaults (k bmint qmint : addr) (w : world) : world :=
  upd_token (PQuoteVault k) (new_vault qmint) (upd_token (PBaseVault k) (new_vault bmint) w).

Lemma init_inv w base bmint qmint pt creator payer bp qp a h w' l :
  initialize_presale w base bmint qmint pt creator payer bp qp a h = Ok (w', l) ->
  exists bm qm p rest hooks rest' pool amount w2 fx,
  let k := PPresale base bmint qmint in
  init_args_decode a = true /\ 0 <= w_now w /\
  w_mints w !! bmint = Some bm /\ w_mints w !! qmint = Some qm /\
  is_wallet base = true /\ is_wallet payer = true /\
  w_presales w !! k = None /\ w_tokens w !! PBaseVault k = None /\
  w_tokens w !! PQuoteVault k = None /\ m_prog bm = bp /\ m_prog qm = qp /\
  validate_init_args a (w_now w) = Ok tt /\
  is_supported_mint qm = true /\ is_supported_mint bm = true /\
  create_presale_vault w k a bmint qmint creator base (w_now w) bp qp (h_accounts h) = Ok (p, rest) /\
  sum_supplies 0 (ia_regs a) = Ok pool /\
  calculate_transfer_fee_included_amount bm pool = Ok amount /\
  parse_remaining_accounts_for_transfer_hook rest (h_slices h) [TransferHookBase]
    = Ok (hooks, rest') /\ check_hook_accounts bm (ph_base hooks) = Ok tt /\
  tok_transfer (with_vaults k bmint qmint w) bp pt bmint (PBaseVault k) payer amount (h_ok h)
    = Ok (w2, fx) /\
  w' = upd_presale k p w2 /\
  l = fx ++ [FxEvent (EvtPresaleVaultCreate bmint qmint (ia_regs a)
        (match locked_option (ia_locked a) with Some l => lv_lock l | None => 0 end)
        (match locked_option (ia_locked a) with Some l => lv_vest l | None => 0 end)
        (pa_wl (ia_params a)) (pa_mode (ia_params a)) (pa_start (ia_params a))
        (pa_end (ia_params a)) (pa_max_cap (ia_params a)) (pa_min_cap (ia_params a)))].
Proof.
  unfold initialize_presale, get_mint. intros H. cbv zeta in H.
  bq H Hd. bclock H. bget H bm Hbm. bget H qm Hqm. bsig H Hs1. bsig H Hs2. bq H Hk. bq H Hv1. bq H Hv2.
  bq H Hp1. bq H Hp2. bi H u Hval. destruct u. bq H Hsq. bq H Hsb. bi H x Hx. destruct x as [p rest].
  bi H pool Hpool. bi H amount Hamount. bi H y Hy. destruct y as [hooks rest'].
  bi H z Hz. destruct z as [w2 fx].
  assert (Hout : w' = upd_presale (PPresale base bmint qmint) p w2 /\
    l = fx ++ [FxEvent (EvtPresaleVaultCreate bmint qmint (ia_regs a)
        (match locked_option (ia_locked a) with Some l => lv_lock l | None => 0 end)
        (match locked_option (ia_locked a) with Some l => lv_vest l | None => 0 end)
        (pa_wl (ia_params a)) (pa_mode (ia_params a)) (pa_start (ia_params a))
        (pa_end (ia_params a)) (pa_max_cap (ia_params a)) (pa_min_cap (ia_params a)))]).
  { destruct (locked_option (ia_locked a)); apply Ok_inj in H; injection H as <- <-; auto. }
  clear H. destruct Hout as [-> ->].
  apply from_user_Ok in Hz as [Hz (m' & Hm' & Hhook)].
  assert (m' = bm) as -> by (cbn in Hm'; congruence).
  clean_bool.
  exists bm, qm, p, rest, hooks, rest', pool, amount, w2, fx.
  repeat (split; [first [assumption|reflexivity]|]). reflexivity.
Qed.

(** * The registries *)

Definition slots (l : list registry_args) : list registry :=
  map reg_init l ++ replicate (5 - length l)%nat reg_zero.

Lemma sum_supplies_Ok l : forall acc s, sum_supplies acc l = Ok s -> s = acc + lsum ra_supply l /\
  (acc <= U64MAX -> s <= U64MAX).
Proof.
  induction l as [|x l IH]; intros acc s; cbn.
  - intros H. apply Ok_inj in H. lia.
  - intros H. bi H a Ha. apply safe_add_Ok in Ha as [-> Ha]. apply IH in H. lia.
Qed.

Lemma slots_supply l : lsum r_supply (slots l) = lsum ra_supply l.
Proof.
  unfold slots. rewrite lsum_app.
  assert (Hz : forall n, lsum r_supply (replicate n reg_zero) = 0)
    by (induction n; cbn; lia).
  rewrite Hz. assert (lsum r_supply (map reg_init l) = lsum ra_supply l); [|lia].
  induction l; cbn; lia.
Qed.

Lemma slots_lookup l i r : (length l <= 5)%nat -> slots l !! i = Some r ->
  (exists x, l !! i = Some x /\ r = reg_init x /\ (i < length l)%nat) \/ ((length l <= i < 5)%nat /\ r = reg_zero).
Proof.
  intros Hl. unfold slots. intros Hi. apply lookup_app_Some in Hi as [Hi|[Hi1 Hi2]].
  - left. apply list_lookup_fmap_inv in Hi as (x & -> & Hx). exists x. repeat split; auto.
    eapply lookup_lt_Some; eassumption.
  - right. apply lookup_replicate in Hi2 as [-> Hi2]. rewrite map_length in *. split; [lia|reflexivity].
Qed.

Lemma slots_len l : (length l <= 5)%nat -> length (slots l) = 5%nat.
Proof. intros. unfold slots. rewrite app_length, map_length, replicate_length. lia. Qed.

(** What [validate] checks about one registry. *)
Definition reg_valid (mx : Z) (x : registry_args) : Prop :=
  0 <= ra_min x <= ra_max x /\ 0 < ra_max x <= mx /\ 0 < ra_supply x /\ 0 <= ra_fee_bps x <= 5000.

Lemma validate_loop_Ok a l : forall acc s, validate_registries_loop a l acc = Ok s ->
  forallb registry_args_decode l = true ->
  s = acc + lsum ra_supply l /\ forall x, x ∈ l -> reg_valid (pa_max_cap a) x.
Proof.
  induction l as [|x l IH]; intros acc s; cbn.
  - intros H _. apply Ok_inj in H. split; [lia|]. intros y Hy. inversion Hy.
  - intros H Hd. apply andb_true_iff in Hd as [Hd1 Hd2].
    bi H u Hu. bi H n Hn. apply safe_add_Ok in Hn as [-> Hn].
    apply IH in H as [-> Hall]; [|assumption]. split; [lia|].
    intros y Hy. apply elem_of_cons in Hy as [->|Hy]; [|auto].
    unfold validate_registry in Hu. inv Hu.
    unfold registry_args_decode, in_u64, in_u16 in Hd1. clean_bool.
    unfold reg_valid, MAX_DEPOSIT_FEE_BPS in *. lia.
Qed.

Definition is_perm (wl : Z) : bool := negb (wl =? 0).
Lemma cast_wl_perm z m : cast_wl z = Ok m -> is_permissioned m = is_perm z.
Proof. intros H. apply cast_wl_Ok in H as [[-> ->]|[[-> ->]|[-> ->]]]; reflexivity. Qed.

Lemma fixed_regs_Ok q mx perm l :
  fixed_check_registries q mx perm l = Ok tt ->
  0 < q -> (forall r, r ∈ l -> 0 <= r_min_cap r <= U64MAX /\ 0 <= r_max_cap r <= U64MAX) ->
  forall r, r ∈ l -> reg_uninit r = false ->
    0 < bought q (r_min_cap r) /\ bought q (r_max_cap r) <= U64MAX /\
    (perm = true -> r_min_cap r = div_ceil q scale /\ r_max_cap r = mx).
Proof.
  intros H Hq. induction l as [|x l IH]; intros Hr r Hin Hun; [inversion Hin|].
  cbn in H. bi H u Hu.
  apply elem_of_cons in Hin as [->|Hin].
  - rewrite Hun in Hu. destruct (Hr x) as [H1 H2]; [left|].
    unfold ensure_token_buyable in Hu.
    bi Hu u1 Hu1. bi Hu1 b Hb. bi Hu1 u2 Hu2. apply require_Ok in Hu2, Hu1. clean_bool.
    rewrite token_bought_ok in Hb by assumption. apply Ok_inj in Hb. subst b.
    bi Hu u3 Hu3. bi Hu3 b Hb. bi Hu3 u4 Hu4. apply require_Ok in Hu4, Hu3. clean_bool.
    rewrite token_bought_ok in Hb by assumption. apply Ok_inj in Hb. subst b.
    split; [assumption|]. split; [assumption|]. intros ->.
    unfold min_quote_amount_for_base_lamport in Hu. bi Hu mq Hmq. apply cast64_Ok in Hmq as [-> _].
    bq Hu H3. apply require_Ok in Hu. clean_bool. auto.
  - apply IH; auto. intros y Hy. apply Hr. right. assumption.
Qed.

Lemma dynamic_caps_Ok mx l :
  enforce_dynamic_caps mx l = Ok tt ->
  forall r, r ∈ l -> reg_uninit r = false -> r_min_cap r = 1 /\ r_max_cap r = mx.
Proof.
  induction l as [|x l IH]; intros H r Hin Hun; [inversion Hin|].
  cbn in H. bi H u Hu. apply elem_of_cons in Hin as [->|Hin]; [|auto].
  rewrite Hun in Hu. apply require_Ok in Hu. clean_bool. auto.
Qed.

(** * Timing *)
Definition timing_ok (end_ lock vest bps imm vs ve : Z) : Prop :=
  0 <= lock /\ 0 <= vest /\ lock + vest < 60 * 60 * 24 * 365 * 10 /\ 0 <= bps <= 10000 /\
  ((vs = end_ + lock /\ ve = vs + vest) \/ (vs = 0 /\ ve = 0 /\ lock = 0 /\ vest = 0 /\ bps = 0)) /\
  end_ + lock + vest <= U64MAX /\ (0 < bps -> imm <= vs + vest) /\ (imm = 0 \/ end_ <= imm) /\
  imm <= U64MAX /\ (bps = 10000 -> lock = 0 /\ vest = 0).

Lemma locked_timing o lk end_ :
  match locked_option lk with Some l => validate_locked l end_ = Ok tt | None => True end ->
  locked_args_decode lk = true -> 0 <= end_ <= U64MAX ->
  match locked_option lk with
    | None => Ok (0, 0, 0, 0, 0, 0)
    | Some l =>
      let* '(vs, ve) := vest_lock_timings end_ (lv_lock l) (lv_vest l) in
      Ok (lv_lock l, lv_vest l, lv_bps l, lv_imm_ts l, vs, ve)
    end = Ok o ->
  exists lock vest bps imm vs ve, o = (lock, vest, bps, imm, vs, ve) /\
  timing_ok end_ lock vest bps imm vs ve /\
  ((locked_option lk = None /\ lock = 0 /\ vest = 0 /\ bps = 0 /\ imm = 0) \/
   (locked_option lk = Some lk /\ lock = lv_lock lk /\ vest = lv_vest lk /\ bps = lv_bps lk /\
    imm = lv_imm_ts lk)).
Proof.
  intros Hval Hdec Hend Ho. unfold locked_option in *.
  match type of Hval with match (if ?b then _ else _) with _ => _ end => destruct b end.
  - apply Ok_inj in Ho. exists 0, 0, 0, 0, 0, 0. split; [auto|]. split; [|auto 8].
    unfold timing_ok. num. lia.
  - bi Ho x Hx. destruct x as [vs ve]. apply Ok_inj in Ho.
    exists (lv_lock lk), (lv_vest lk), (lv_bps lk), (lv_imm_ts lk), vs, ve. split; [auto|].
    split; [|auto 10].
    assert (Hvs : vs = end_ + lv_lock lk /\ ve = end_ + lv_lock lk + lv_vest lk /\
                  end_ + lv_lock lk + lv_vest lk <= U64MAX).
    { clear -Hx. unfold vest_lock_timings in Hx. inv Hx. injection Hx as <- <-. subst. auto. }
    destruct Hvs as (Hvs & Hve & Hle). clear Hx.
    unfold locked_args_decode, in_u64, in_u16 in Hdec. clean_bool.
    unfold validate_locked in Hval. bi Hval tot Htot. apply safe_add_Ok in Htot as [-> Htot].
    bq Hval Hdur. bq Hval Hbps. clean_bool. unfold MAXIMUM_LOCK_AND_VEST_DURATION, MAX_FEE_BASIS_POINTS in *.
    destruct (Z.eqb_spec (lv_bps lk) 10000) as [Hb|Hb].
    + bq Hval Hz. clean_bool. unfold timing_ok.
      destruct (Z.ltb_spec 0 (lv_imm_ts lk)).
      * apply require_Ok in Hval. clean_bool. repeat split; try lia.
      * repeat split; try lia.
    + bq Hval Hz. bi Hval y Hy. destruct y as [vs' ve'].
      assert (ve' = ve).
      { clear -Hy Hve. unfold vest_lock_timings in Hy. inv Hy. injection Hy as <- <-. lia. }
      subst ve'. unfold timing_ok. clear Hy.
      destruct (Z.ltb_spec 0 (lv_imm_ts lk)).
      * destruct (Z.eqb_spec (lv_bps lk) 0).
        -- apply require_Ok in Hval. clean_bool. repeat split; try lia.
        -- apply require_Ok in Hval. clean_bool. repeat split; try lia.
      * repeat split; try lia.
Qed.

(** * The new account *)

(** Everything a new presale starts with. *)
Record newly (w : world) (k bmint qmint creator base : addr) (bp qp : prog) (a : init_args)
    (p : presale) : Prop := {
  n_cfg : cfg k p;
  n_owner : p_owner p = creator;
  n_bmint : p_bmint p = bmint;
  n_qmint : p_qmint p = qmint;
  n_base : p_base p = base;
  n_bprog : p_bprog p = bp;
  n_qprog : p_qprog p = qp;
  n_mode : p_mode p = pa_mode (ia_params a);
  n_wl : p_wl p = pa_wl (ia_params a);
  n_max : p_max_cap p = pa_max_cap (ia_params a);
  n_min : p_min_cap p = pa_min_cap (ia_params a);
  n_start : p_start p = Z.max (pa_start (ia_params a)) (w_now w);
  n_end : p_end p = pa_end (ia_params a);
  n_duration : 60 <= p_end p - p_start p <= 60 * 60 * 24 * 30;
  n_ahead : p_start p - w_now w <= 60 * 60 * 24 * 30;
  n_created : p_created p = w_now w;
  n_supply : p_supply p = lsum ra_supply (ia_regs a);
  n_nreg : p_nreg p = Z.of_nat (length (ia_regs a));
  n_regs : p_regs p = slots (ia_regs a);
  n_unsold : p_unsold p = pa_unsold (ia_params a);
  n_timing : timing_ok (p_end p) (p_lock p) (p_vest p) (p_bps p) (p_imm_ts p) (p_vs p) (p_ve p);
  n_lock : (p_lock p = lv_lock (ia_locked a) /\ p_vest p = lv_vest (ia_locked a) /\
            p_bps p = lv_bps (ia_locked a) /\ p_imm_ts p = lv_imm_ts (ia_locked a));
  n_zero : p_deposit p = 0 /\ p_escrows p = 0 /\ p_claimed p = 0 /\ p_refunded p = 0 /\ p_fee p = 0;
  n_flags : p_cwd p = 0 /\ p_fee_col p = 0 /\ p_unsold_done p = 0;
  n_early : pa_disable_early (ia_params a) = 0 \/ pa_disable_early (ia_params a) = 1;
  n_raw : match p_mode p with
    | 0 => exists x, w_fixed w !! PFixedArgs k = Some x /\ x_presale x = k /\
             p_raw0 p = x_qprice x /\
             p_raw1 p = pa_disable_early (ia_params a) * 256 + x_disable_withdraw x
    | 1 => p_raw0 p = 0 /\ p_raw1 p = 0
    | _ => p_raw0 p = pa_disable_early (ia_params a) /\ p_raw1 p = 0
    end
}.

Lemma init_newly w k a bmint qmint creator base bp qp rem p rest :
  inv w -> k = PPresale base bmint qmint ->
  init_args_decode a = true -> validate_init_args a (w_now w) = Ok tt ->
  create_presale_vault w k a bmint qmint creator base (w_now w) bp qp rem = Ok (p, rest) ->
  newly w k bmint qmint creator base bp qp a p /\
  (p_mode p = 0 -> rem = PFixedArgs k :: rest) /\ (p_mode p <> 0 -> rem = rest).
Proof.
  intros Hinv Hk Hdec Hval H.
  unfold init_args_decode in Hdec. apply andb_true_iff in Hdec as [Hdec Hdr].
  apply andb_true_iff in Hdec as [Hdp Hdl].
  unfold presale_args_decode in Hdp. repeat (apply andb_true_iff in Hdp as [Hdp ?]).
  repeat match goal with Hx : in_u64 _ = true |- _ => apply in_u64_iff in Hx end.
  unfold validate_init_args in Hval. bi Hval u Hvp. bi Hval u1 Hvr.
  assert (Hvl : match locked_option (ia_locked a) with
                | Some l => validate_locked l (pa_end (ia_params a)) = Ok tt | None => True end).
  { destruct (locked_option (ia_locked a)); auto. }
  clear Hval.
  (* presale arguments *)
  unfold validate_presale_args in Hvp. unfold start_time_without_going_backwards in Hvp.
  bq Hvp Hmm. bq Hvp Hm0. bq Hvp Hse. bi Hvp dur Hdur. apply safe_sub_Ok in Hdur as [-> Hdur].
  bq Hvp Hdd. bi Hvp us Hus. apply safe_sub_Ok in Hus as [-> Hus]. bq Hvp Hah.
  bi Hvp wl Hwl. bi Hvp md Hmd. apply require_Ok in Hvp. clean_bool.
  unfold MINIMUM_PRESALE_DURATION, MAXIMUM_PRESALE_DURATION, MAXIMUM_DURATION_UNTIL_PRESALE in *.
  (* registries *)
  unfold validate_presale_registries in Hvr. bq Hvr Hn. bi Hvr sup Hsup. bq Hvr Hs1. bq Hvr Hs2.
  clean_bool. unfold MAX_PRESALE_REGISTRY_COUNT in *.
  destruct (validate_loop_Ok _ _ _ _ Hsup Hdr) as [Hsupe Hregs].
  (* account *)
  unfold create_presale_vault in H. bi H p0 Hp0. bi H hh Hhh.
  unfold presale_initialize in Hp0. bi Hp0 s Hs. apply sum_supplies_Ok in Hs as [Hs Hs64].
  bq Hp0 Hlen. bi Hp0 o Ho.
  apply locked_timing in Ho as (lock & vest & bps & imm & vs & ve & -> & Ht & Hlk); try assumption.
  apply Ok_inj in Hp0.
  change (Z.to_nat MAX_PRESALE_REGISTRY_COUNT) with 5%nat in Hp0. fold (slots (ia_regs a)) in Hp0.
  assert (Hwle : pa_wl (ia_params a) = 0 \/ pa_wl (ia_params a) = 1 \/ pa_wl (ia_params a) = 2).
  { unfold wl_of_u8 in Hwl. apply ok_or_Ok in Hwl.
    repeat match type of Hwl with (if ?x =? ?y then _ else _) = _ => destruct (Z.eqb_spec x y) end; auto; discriminate. }
  assert (Hmde : pa_mode (ia_params a) = 0 \/ pa_mode (ia_params a) = 1 \/ pa_mode (ia_params a) = 2).
  { unfold mode_of_u8 in Hmd. apply ok_or_Ok in Hmd.
    repeat match type of Hmd with (if ?x =? ?y then _ else _) = _ => destruct (Z.eqb_spec x y) end; auto; discriminate. }
  assert (Hearly : pa_disable_early (ia_params a) = 0 \/ pa_disable_early (ia_params a) = 1).
  { unfold is_bool_u8 in Hvp. qlia. }
  assert (Hnwl : 1 < Z.of_nat (length (ia_regs a)) -> pa_wl (ia_params a) <> 0).
  { intros Hlt. destruct (Z.ltb_spec 1 (Z.of_nat (length (ia_regs a)))); [|qlia].
    bi Hvr wl' Hwl'. apply require_Ok in Hvr. rewrite (cast_wl_perm _ _ Hwl') in Hvr.
    unfold is_perm in Hvr. clean_bool. assumption. }
  assert (Hreg : forall i r, slots (ia_regs a) !! i = Some r ->
    (Z.of_nat i < Z.of_nat (length (ia_regs a)) /\ 0 < r_supply r /\ 0 < r_max_cap r <= pa_max_cap (ia_params a) /\
     0 <= r_min_cap r <= r_max_cap r /\ 0 <= r_fee_bps r <= 5000) \/
    (Z.of_nat (length (ia_regs a)) <= Z.of_nat i /\ r = reg_zero)).
  { intros i r Hi. apply slots_lookup in Hi as [(x & Hx & -> & Hlt)|[Hlt ->]]; [| |qlia].
    - left. apply elem_of_list_lookup_2 in Hx. apply Hregs in Hx. unfold reg_valid in Hx. cbn. qlia.
    - right. split; [qlia|reflexivity]. }
  assert (Huninit : forall i r, slots (ia_regs a) !! i = Some r -> Z.of_nat i < Z.of_nat (length (ia_regs a)) ->
    reg_uninit r = false).
  { intros i r Hi Hlt. apply Hreg in Hi as [Hi|Hi]; [|qlia]. unfold reg_uninit. qlia. }
  assert (Hrange : forall r, r ∈ slots (ia_regs a) -> 0 <= r_min_cap r <= U64MAX /\ 0 <= r_max_cap r <= U64MAX).
  { intros r Hr. apply elem_of_list_lookup_1 in Hr as [i Hi]. unfold in_u64 in *. clean_bool.
    apply Hreg in Hi as [Hi|[_ ->]]; [qlia|cbn; num; qlia]. }
  pose proof Ht as Ht'. unfold timing_ok in Ht'.
  destruct Ht' as (T1 & T2 & T3 & T4 & T5 & T6 & T7 & T8 & T9 & T10).
  (* a configuration from the mode specific facts *)
  assert (Hcfg : forall r0 r1,
    (pa_mode (ia_params a) = 0 ->
      0 < r0 <= U128MAX /\ bought r0 (pa_max_cap (ia_params a)) <= s /\
      bought r0 (pa_min_cap (ia_params a)) < bought r0 (pa_max_cap (ia_params a)) /\
      forall i r, slots (ia_regs a) !! i = Some r -> Z.of_nat i < Z.of_nat (length (ia_regs a)) ->
        0 < bought r0 (r_min_cap r) /\ bought r0 (r_max_cap r) <= U64MAX) ->
    (pa_wl (ia_params a) <> 0 ->
      forall i r, slots (ia_regs a) !! i = Some r -> Z.of_nat i < Z.of_nat (length (ia_regs a)) ->
      r_max_cap r = pa_max_cap (ia_params a) /\
      r_min_cap r = if pa_mode (ia_params a) =? 0 then div_ceil r0 scale else 1) ->
    cfg k (set_p_raw1 r1 (set_p_raw0 r0 p0))).
  { intros r0 r1 Hprice Hperm. subst p0. constructor; cbn.
    - assumption.
    - reflexivity.
    - reflexivity.
    - assumption.
    - assumption.
    - unfold in_u64 in *. clean_bool. qlia.
    - apply slots_len. qlia.
    - qlia.
    - assumption.
    - exact Hreg.
    - rewrite slots_supply. qlia.
    - apply Hs64. num. qlia.
    - unfold in_u64 in *. clean_bool. unfold start_time_without_going_backwards. qlia.
    - assumption.
    - qlia.
    - assumption.
    - assumption.
    - assumption.
    - assumption.
    - assumption.
    - assumption.
    - exact Hprice.
    - exact Hperm. }
  assert (Hlock : lock = lv_lock (ia_locked a) /\ vest = lv_vest (ia_locked a) /\
                  bps = lv_bps (ia_locked a) /\ imm = lv_imm_ts (ia_locked a)).
  { destruct Hlk as [(Hn1 & -> & -> & -> & ->)|(_ & -> & -> & -> & ->)]; [|auto].
    unfold locked_option in Hn1.
    match type of Hn1 with (if ?b then _ else _) = _ => destruct b eqn:Hbb; [|discriminate] end.
    clean_bool. auto. }
  assert (Hnew : forall r0 r1,
    cfg k (set_p_raw1 r1 (set_p_raw0 r0 p0)) ->
    (match pa_mode (ia_params a) with
    | 0 => exists x, w_fixed w !! PFixedArgs k = Some x /\ x_presale x = k /\
             r0 = x_qprice x /\ r1 = pa_disable_early (ia_params a) * 256 + x_disable_withdraw x
    | 1 => r0 = 0 /\ r1 = 0
    | _ => r0 = pa_disable_early (ia_params a) /\ r1 = 0
    end) ->
    newly w k bmint qmint creator base bp qp a (set_p_raw1 r1 (set_p_raw0 r0 p0))).
  { intros r0 r1 Hcf Hraw. subst p0. constructor; cbn; try reflexivity; try assumption; try qlia; auto.
  }
  assert (Hself : p0 = set_p_raw1 0 (set_p_raw0 0 p0)) by (subst p0; reflexivity).
  assert (Hp0mode : p_mode p0 = pa_mode (ia_params a)) by (subst p0; reflexivity).
  assert (Hp0wl : p_wl p0 = pa_wl (ia_params a)) by (subst p0; reflexivity).
  assert (Hp0regs : p_regs p0 = slots (ia_regs a)) by (subst p0; reflexivity).
  assert (Hp0max : p_max_cap p0 = pa_max_cap (ia_params a)) by (subst p0; reflexivity).
  assert (Hp0min : p_min_cap p0 = pa_min_cap (ia_params a)) by (subst p0; reflexivity).
  assert (Hp0sup : p_supply p0 = s) by (subst p0; reflexivity).
  assert (Hp0raw : p_raw0 p0 = 0 /\ p_raw1 p0 = 0) by (subst p0; split; reflexivity).
  assert (Hdyn : (let* wl := cast_wl (p_wl p0) in
     let* _ := if is_permissioned wl then enforce_dynamic_caps (p_max_cap p0) (p_regs p0) else Ok tt in
     Ok tt) = Ok tt ->
     pa_wl (ia_params a) <> 0 ->
      forall i r, slots (ia_regs a) !! i = Some r -> Z.of_nat i < Z.of_nat (length (ia_regs a)) ->
      r_max_cap r = pa_max_cap (ia_params a) /\ r_min_cap r = 1).
  { intros HH Hne i r Hi Hlt. bi HH wl' Hwl'. bi HH u2 Hu2.
    rewrite (cast_wl_perm _ _ Hwl') in Hu2. rewrite Hp0wl in Hu2. unfold is_perm in Hu2.
    destruct (Z.eqb_spec (pa_wl (ia_params a)) 0); [contradiction|]. cbn [negb] in Hu2. destruct u2.
    rewrite Hp0regs, Hp0max in Hu2.
    destruct (dynamic_caps_Ok _ _ Hu2 r) as [? ?]; [|eapply Huninit; eassumption|auto].
    eapply elem_of_list_lookup_2; eassumption. }
  apply handler_mode in Hhh. rewrite Hp0mode in Hhh.
  destruct Hhh as [[Hm ->]|[[Hm ->]|[Hm ->]]]; cbn [handler_initialize] in H.
  - (* fixed price *)
    destruct rem as [|kx rest0]; [discriminate|]. bi H x Hx. apply ok_or_Ok in Hx. bq H Hxp.
    bi H wl' Hwl'. bi H u2 Hu2. bi H u3 Hu3. bi H u4 Hu4. apply Ok_inj in H. injection H as <- <-.
    apply beq_addr_true in Hxp. destruct (i_fixed _ Hinv _ _ Hx) as (Hkx & Hq & Hdw).
    rewrite Hxp in Hkx. subst kx.
    rewrite (cast_wl_perm _ _ Hwl') in Hu2. rewrite Hp0wl, Hp0regs, Hp0max in Hu2. destruct u2.
    unfold ensure_enough_presale_supply in Hu3. bi Hu3 b Hb. apply require_Ok in Hu3. clean_bool.
    rewrite Hp0max in Hb. rewrite token_bought_ok in Hb by (unfold in_u64 in *; clean_bool; qlia).
    apply Ok_inj in Hb. subst b.
    unfold ensure_gap_between_min_and_max in Hu4. bi Hu4 b1 Hb1. bi Hu4 b2 Hb2. bi Hu4 dl Hdl2.
    apply safe_sub_Ok in Hdl2 as [-> Hdl2]. apply require_Ok in Hu4. clean_bool.
    rewrite Hp0max in Hb2. rewrite Hp0min in Hb1.
    rewrite token_bought_ok in Hb1 by (unfold in_u64 in *; clean_bool; qlia).
    rewrite token_bought_ok in Hb2 by (unfold in_u64 in *; clean_bool; qlia).
    apply Ok_inj in Hb1, Hb2. subst b1 b2.
    destruct Hp0raw as [_ Hr1].
    unfold fixed_initialize_data. rewrite Hr1. change (0 / 65536 * 65536) with 0. rewrite Z.add_0_l.
    split; [|split; [auto|cbn; rewrite Hp0mode; intros; contradiction]].
    assert (Hfr : forall i r, slots (ia_regs a) !! i = Some r -> Z.of_nat i < Z.of_nat (length (ia_regs a)) ->
       0 < bought (x_qprice x) (r_min_cap r) /\ bought (x_qprice x) (r_max_cap r) <= U64MAX /\
       (is_perm (pa_wl (ia_params a)) = true -> r_min_cap r = div_ceil (x_qprice x) scale /\
          r_max_cap r = pa_max_cap (ia_params a))).
    { intros i r Hi Hlt. eapply fixed_regs_Ok; try eassumption; [qlia| |eapply Huninit; eassumption].
      eapply elem_of_list_lookup_2; eassumption. }
    apply Hnew.
    + apply Hcfg.
      * intros _. split; [assumption|]. split; [qlia|]. split; [qlia|].
        intros i r Hi Hlt. destruct (Hfr i r Hi Hlt) as (? & ? & _). auto.
      * intros Hne i r Hi Hlt. destruct (Hfr i r Hi Hlt) as (_ & _ & Hp).
        rewrite Hm. cbn. destruct Hp as [Hp1 Hp2]; [unfold is_perm; qlia|]. auto.
    + rewrite Hm. exists x. auto.
  - (* prorata *)
    bi H wl' Hwl'. bi H u2 Hu2. apply Ok_inj in H. injection H as <- <-.
    split; [|split; [rewrite Hp0mode; intros; qlia|auto]].
    rewrite Hself. apply Hnew; [|rewrite Hm; auto]. apply Hcfg; [qlia|].
    rewrite Hm. cbn. apply Hdyn. rewrite Hwl'. cbn. rewrite Hu2. reflexivity.
  - (* fcfs *)
    bi H wl' Hwl'. bi H u2 Hu2. apply Ok_inj in H. injection H as <- <-.
    destruct Hp0raw as [Hr0 Hr1]. unfold fcfs_initialize_data. rewrite Hr0.
    change (0 / 256 * 256) with 0. rewrite Z.add_0_l.
    assert (Hself2 : forall v, set_p_raw0 v p0 = set_p_raw1 0 (set_p_raw0 v p0)).
    { intros v. subst p0. reflexivity. }
    split; [|split; [cbn; rewrite Hp0mode; intros; qlia|auto]].
    rewrite Hself2. apply Hnew; [|rewrite Hm; auto]. apply Hcfg; [qlia|].
    rewrite Hm. cbn. apply Hdyn. rewrite Hwl'. cbn. rewrite Hu2. reflexivity.
Qed.
