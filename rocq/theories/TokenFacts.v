(** Facts about the token programs: what a successful operation changes. *)
From Coq Require Import Lia.
From Verif Require Import Base Math State Handlers Token World Spec Tactics Sums Arith.

(** Everything except token accounts and mints is the same. *)
Definition same_rest (w w' : world) : Prop :=
  w_now w' = w_now w /\ w_presales w' = w_presales w /\ w_escrows w' = w_escrows w /\
  w_fixed w' = w_fixed w /\ w_merkles w' = w_merkles w /\ w_opers w' = w_opers w /\
  w_servers w' = w_servers w.

Lemma same_rest_refl w : same_rest w w.
Proof. repeat split. Qed.
Lemma same_rest_trans w1 w2 w3 : same_rest w1 w2 -> same_rest w2 w3 -> same_rest w1 w3.
Proof. unfold same_rest. intuition congruence. Qed.

(** * Mints *)

Definition fee_ok (f : tfee) : Prop := 0 <= f_bps f <= 10000 /\ 0 <= f_max f <= U64MAX.
Definition mint_fee_ok (m : mint) : Prop := forall f, m_fee m = Some f -> fee_ok f.

Lemma supported_no_delegate m : is_supported_mint m = true -> permanent_delegate m = None.
Proof.
  unfold is_supported_mint, permanent_delegate. destruct (m_prog m); [reflexivity|].
  intros Hs. clean_bool. destruct (m_delegate m); [discriminate|reflexivity].
Qed.

Lemma supported_not_closable m :
  is_supported_mint m = true -> m_prog m = Token2022 -> ~ ExtMintCloseAuthority ∈ m_exts m.
Proof.
  unfold is_supported_mint. intros Hs Hp Hin. rewrite Hp in Hs. clean_bool.
  rewrite forallb_forall in Hs. specialize (Hs ExtMintCloseAuthority).
  apply elem_of_list_In in Hin. specialize (Hs Hin). discriminate.
Qed.

Lemma spl_fee_range f n : fee_ok f -> 0 <= n -> 0 <= spl_calculate_fee f n <= n.
Proof.
  intros (Hb & Hm) Hn. unfold spl_calculate_fee.
  destruct ((f_bps f =? 0) || (n =? 0)) eqn:Hz; [lia|].
  apply orb_false_iff in Hz as [Hz1 Hz2]. clean_bool.
  pose proof (div_ceil_nonneg (n * f_bps f) MAX_FEE_BASIS_POINTS ltac:(nia) ltac:(reflexivity)).
  assert (div_ceil (n * f_bps f) MAX_FEE_BASIS_POINTS <= n).
  { apply div_ceil_least; [reflexivity|]. num. nia. }
  lia.
Qed.

Lemma tok_fee_range m n : mint_fee_ok m -> 0 <= n -> 0 <= tok_fee m n <= n.
Proof.
  intros Hm Hn. unfold tok_fee, get_epoch_transfer_fee.
  destruct (m_prog m); [lia|]. destruct (m_fee m) as [f|] eqn:Hf; [|lia].
  apply spl_fee_range; [apply Hm|]; assumption.
Qed.

(** * Invariant of the token side *)

Definition held (mk : addr) (_ : addr) (t : token) : Z :=
  if bool_decide (t_mint t = mk) then t_amount t else 0.

Record tokens_ok (w : world) : Prop := {
  tk_amount : forall k t, w_tokens w !! k = Some t -> 0 <= t_amount t;
  tk_fee : forall mk m, w_mints w !! mk = Some m -> mint_fee_ok m;
  tk_withheld : forall mk m, w_mints w !! mk = Some m -> 0 <= m_withheld m;
  tk_supply : forall mk m, w_mints w !! mk = Some m ->
    msum (held mk) (w_tokens w) + m_withheld m = m_supply m /\ m_supply m <= U64MAX;
  tk_nomint : forall mk, w_mints w !! mk = None -> msum (held mk) (w_tokens w) = 0
}.

Lemma held_nonneg w mk : tokens_ok w -> forall k t, w_tokens w !! k = Some t -> 0 <= held mk k t.
Proof.
  intros Hw k t Ht. unfold held. pose proof (tk_amount w Hw k t Ht).
  destruct (bool_decide _); lia.
Qed.

Lemma tk_sum_bound w mk : tokens_ok w -> msum (held mk) (w_tokens w) <= U64MAX.
Proof.
  intros Hw. destruct (w_mints w !! mk) as [m|] eqn:Hm.
  - destruct (tk_supply w Hw mk m Hm). pose proof (tk_withheld w Hw mk m Hm). lia.
  - rewrite (tk_nomint w Hw mk Hm). num. lia.
Qed.

(** Balances fit in u64, and so does the sum of two of them. *)
Lemma tk_amount_u64 w k t : tokens_ok w -> w_tokens w !! k = Some t -> 0 <= t_amount t <= U64MAX.
Proof.
  intros Hw Ht. split; [eapply tk_amount; eassumption|].
  pose proof (tk_sum_bound w (t_mint t) Hw) as Hb.
  pose proof (msum_member (held (t_mint t)) _ _ _ Ht (held_nonneg w _ Hw)) as Hm.
  unfold held in Hm at 1. rewrite bool_decide_eq_true_2 in Hm by reflexivity. lia.
Qed.

Lemma tk_two_u64 w k t k' t' :
  tokens_ok w -> w_tokens w !! k = Some t -> w_tokens w !! k' = Some t' -> k <> k' ->
  t_mint t = t_mint t' -> t_amount t + t_amount t' <= U64MAX.
Proof.
  intros Hw Ht Ht' Hne Hm.
  pose proof (tk_sum_bound w (t_mint t) Hw) as Hb.
  pose proof (msum_member2 (held (t_mint t)) _ _ _ _ _ Ht Ht' Hne (held_nonneg w _ Hw)) as Hs.
  unfold held in Hs at 1 2. rewrite !bool_decide_eq_true_2 in Hs by congruence. lia.
Qed.

Lemma put_tokens_mints w tks ms :
  (forall k t, tks !! k = Some t -> 0 <= t_amount t) ->
  (forall mk m, ms !! mk = Some m -> mint_fee_ok m /\ 0 <= m_withheld m /\
     msum (held mk) tks + m_withheld m = m_supply m /\ m_supply m <= U64MAX) ->
  (forall mk, ms !! mk = None -> msum (held mk) tks = 0) ->
  w_tokens w = tks -> w_mints w = ms -> tokens_ok w.
Proof.
  intros H1 H2 H3 H4 H5. subst. split; intros.
  - eauto.
  - eapply H2; eassumption.
  - eapply H2; eassumption.
  - destruct (H2 mk m ltac:(assumption)) as (_ & _ & ? & ?). auto.
  - auto.
Qed.

Lemma tokens_ok_ext w w' :
  w_tokens w' = w_tokens w -> w_mints w' = w_mints w -> tokens_ok w -> tokens_ok w'.
Proof.
  intros H1 H2 Hw. split; intros; rewrite ?H1, ?H2 in *.
  - eapply tk_amount; eassumption.
  - eapply tk_fee; eassumption.
  - eapply tk_withheld; eassumption.
  - eapply tk_supply; eassumption.
  - eapply tk_nomint; eassumption.
Qed.

(** * Vaults and mints of a presale *)

(** Nobody but the owner can send, and neither extension of the account stops a transfer. *)
Definition plain (t : token) : Prop :=
  t_delegate t = None /\ t_memo t = false /\ t_guard t = false.

(** [v] is a token account for [mk] under the control of the program with at least [b]. *)
Definition vault_has (w : world) (mk : addr) (b : Z) (v : addr) : Prop :=
  exists t, w_tokens w !! v = Some t /\ t_mint t = mk /\ t_owner t = PAuth /\
            plain t /\ b <= t_amount t.

Definition mint_good (w : world) (pr : prog) (mk : addr) : Prop :=
  exists m, w_mints w !! mk = Some m /\ m_prog m = pr /\ is_supported_mint m = true.

Lemma vault_has_le w mk b b' v : b' <= b -> vault_has w mk b v -> vault_has w mk b' v.
Proof. intros Hb (t & ? & ? & ? & (? & ? & ?) & ?). exists t. repeat split; cbn; try assumption. lia. Qed.

(** Token side of a step that the program does not sign: vaults never lose, good mints stay. *)
Definition vaults_kept (w w' : world) : Prop :=
  (forall mk b v pr, mint_good w pr mk -> vault_has w mk b v -> vault_has w' mk b v) /\
  (forall mk pr, mint_good w pr mk -> mint_good w' pr mk).

Lemma vaults_kept_refl w : vaults_kept w w.
Proof. split; eauto. Qed.
Lemma vaults_kept_trans w1 w2 w3 : vaults_kept w1 w2 -> vaults_kept w2 w3 -> vaults_kept w1 w3.
Proof. intros [Ha Hb] [Hc Hd]. split; eauto. Qed.
Lemma vaults_kept_ext w w' :
  w_tokens w' = w_tokens w -> w_mints w' = w_mints w -> vaults_kept w w'.
Proof.
  intros H1 H2. split.
  - intros mk b v pr _ (t & Ht & ?). exists t. rewrite H1. auto.
  - intros mk pr (m & Hm & ?). exists m. rewrite H2. auto.
Qed.

(** * Transfers *)

Lemma tok_transfer_inv w pr src mk dst auth n ok w' l :
  tok_transfer w pr src mk dst auth n ok = Ok (w', l) ->
  exists m s d dl,
    w_mints w !! mk = Some m /\ w_tokens w !! src = Some s /\ w_tokens w !! dst = Some d /\
    m_prog m = pr /\ n <= t_amount s /\ t_mint s = mk /\ t_mint d = mk /\
    t_frozen s = false /\ t_frozen d = false /\
    tok_authorize m s auth n = Ok dl /\
    ((src = dst /\ w' = w /\ l = [FxTransfer src dst auth mk n 0]) \/
     (src <> dst /\
      t_amount d + (n - tok_fee m n) <= U64MAX /\
      (has_transfer_hook_program m = true -> ok = true) /\
      w' = upd_mint mk (set_m_withheld (m_withheld m + tok_fee m n) m)
             (upd_token dst (set_t_amount (t_amount d + (n - tok_fee m n)) d)
               (upd_token src (set_t_delegate dl (set_t_amount (t_amount s - n) s)) w)) /\
      l = [FxTransfer src dst auth mk n (tok_fee m n)])).
Proof.
  unfold tok_transfer, get_mint, get_token. intros Ht. inv Ht. clean_bool. subst.
  exists v, v0, v1, v6. repeat (split; [assumption || reflexivity|]).
  destruct (beq_addr src dst) eqn:Hsd; clean_bool.
  - left. apply Ok_inj in Ht. injection Ht as <- <-. auto.
  - right. inv Ht. injection Ht as <- <-. clean_bool.
    split; [assumption|]. split; [assumption|]. split; [|split; [|]; reflexivity].
    intros Hh. rewrite Hh in *. cbn in *. assumption.
Qed.

Lemma tok_transfer_rest w pr src mk dst auth n ok w' l :
  tok_transfer w pr src mk dst auth n ok = Ok (w', l) -> same_rest w w'.
Proof.
  intros Ht. apply tok_transfer_inv in Ht.
  destruct Ht as (m & s & d & dl & _ & _ & _ & _ & _ & _ & _ & _ & _ & _ & [(_ & -> & _)|(_ & _ & _ & -> & _)]).
  - apply same_rest_refl.
  - repeat split.
Qed.

Lemma tok_transfer_ok w pr src mk dst auth n ok w' l :
  tokens_ok w -> 0 <= n ->
  tok_transfer w pr src mk dst auth n ok = Ok (w', l) -> tokens_ok w'.
Proof.
  intros Hw Hn Ht. apply tok_transfer_inv in Ht.
  destruct Ht as (m & s & d & dl & Hm & Hs & Hd & _ & Hle & Hms & Hmd & _ & _ & _ & [(_ & -> & _)|(Hne & _ & _ & -> & _)]);
    [assumption|].
  pose proof (tok_fee_range m n (tk_fee w Hw mk m Hm) Hn) as Hfee.
  pose proof (tk_amount w Hw _ _ Hd) as Hd0.
  pose proof (tk_withheld w Hw mk m Hm) as Hwh.
  set (s' := set_t_delegate dl (set_t_amount (t_amount s - n) s)).
  set (d' := set_t_amount (t_amount d + (n - tok_fee m n)) d).
  assert (Hsum : forall x, msum (held x) (<[dst := d']> (<[src := s']> (w_tokens w)))
                 = msum (held x) (w_tokens w) - (if bool_decide (x = mk) then tok_fee m n else 0)).
  { intros x. rewrite (msum_update _ _ _ d) by (rewrite lookup_insert_ne; assumption).
    rewrite (msum_update _ _ _ s) by assumption. unfold held. subst s' d'. cbn.
    rewrite Hms, Hmd. destruct (decide (mk = x)) as [->|Hx].
    - rewrite !bool_decide_eq_true_2 by reflexivity. lia.
    - rewrite !bool_decide_eq_false_2 by congruence. lia. }
  eapply put_tokens_mints; [..|reflexivity|reflexivity]; cbn.
  - intros k t Hk. destruct (decide (k = dst)) as [->|Hkd].
    + rewrite lookup_insert in Hk. injection Hk as <-. subst d'. cbn. lia.
    + rewrite lookup_insert_ne in Hk by congruence. destruct (decide (k = src)) as [->|Hks].
      * rewrite lookup_insert in Hk. injection Hk as <-. subst s'. cbn. lia.
      * rewrite lookup_insert_ne in Hk by congruence. eapply tk_amount; eassumption.
  - intros x mx Hx. rewrite Hsum. destruct (decide (x = mk)) as [->|Hxm].
    + rewrite lookup_insert in Hx. injection Hx as <-. cbn.
      rewrite bool_decide_eq_true_2 by reflexivity.
      destruct (tk_supply w Hw mk m Hm). pose proof (tk_fee w Hw mk m Hm).
      repeat split; try assumption; try lia; try (eapply H1; eassumption).
    + rewrite lookup_insert_ne in Hx by congruence. rewrite bool_decide_eq_false_2 by assumption.
      destruct (tk_supply w Hw x mx Hx).
      repeat split; try (eapply tk_fee; eassumption); try (eapply tk_withheld; eassumption); try lia;
        try (eapply (tk_fee w Hw); eassumption).
  - intros x Hx. rewrite Hsum. apply lookup_insert_None in Hx as [Hx Hxm].
    rewrite bool_decide_eq_false_2 by congruence. rewrite (tk_nomint w Hw x Hx). lia.
Qed.

(** A transfer signed by anyone but the program authority. *)
Lemma tok_transfer_kept w pr src mk dst auth n ok w' l :
  tokens_ok w -> 0 <= n -> auth <> PAuth ->
  tok_transfer w pr src mk dst auth n ok = Ok (w', l) -> vaults_kept w w'.
Proof.
  intros Hw Hn Ha Ht. apply tok_transfer_inv in Ht.
  destruct Ht as (m & s & d & dl & Hm & Hs & Hd & _ & Hle & Hms & Hmd & _ & _ & Hau & [(_ & -> & _)|(Hne & _ & _ & -> & _)]);
    [apply vaults_kept_refl|].
  pose proof (tok_fee_range m n (tk_fee w Hw mk m Hm) Hn) as Hfee.
  split.
  - intros x b v pr' (mx & Hmx & Hpr & Hgood) (t & Htv & Htm & Hto & (Htd & Hmo & Hgu) & Htb). unfold vault_has. cbn.
    destruct (decide (v = dst)) as [->|Hvd].
    + exists (set_t_amount (t_amount d + (n - tok_fee m n)) d). rewrite lookup_insert.
      assert (t = d) as -> by congruence. cbn. repeat split; cbn; try assumption. lia.
    + rewrite lookup_insert_ne by congruence. destruct (decide (v = src)) as [->|Hvs].
      * assert (t = s) as -> by congruence. exfalso.
        assert (mx = m) as -> by congruence.
        unfold tok_authorize in Hau. rewrite Htd in Hau. inv Hau.
        rewrite (supported_no_delegate m Hgood) in *. rewrite Hto in *. clean_bool.
        apply orb_true_iff in Hv as [Hv|Hv]; clean_bool; congruence.
      * rewrite lookup_insert_ne by congruence. exists t. repeat split; assumption.
  - intros x pr' (mx & Hmx & Hpr & Hgood). unfold mint_good. cbn.
    destruct (decide (x = mk)) as [->|Hxm].
    + assert (mx = m) as -> by congruence. eexists. rewrite lookup_insert. split; [reflexivity|].
      split; [assumption|]. exact Hgood.
    + exists mx. rewrite lookup_insert_ne by congruence. auto.
Qed.

(** A transfer out of a vault signed by the program: only the source vault can lose, at most the
    amount. *)
Lemma tok_transfer_out w pr src mk dst n ok w' l :
  tokens_ok w -> 0 <= n ->
  tok_transfer w pr src mk dst PAuth n ok = Ok (w', l) ->
  (forall x b v, v <> src -> vault_has w x b v -> vault_has w' x b v) /\
  (forall x b, vault_has w x b src -> vault_has w' x (b - n) src) /\
  (forall x pr, mint_good w pr x -> mint_good w' pr x).
Proof.
  intros Hw Hn Ht. apply tok_transfer_inv in Ht.
  destruct Ht as (m & s & d & dl & Hm & Hs & Hd & _ & Hle & Hms & Hmd & _ & _ & Hau & [(_ & -> & _)|(Hne & _ & _ & -> & _)]).
  { repeat split; eauto. intros x b Hv. eapply vault_has_le; [|eassumption]. lia. }
  pose proof (tok_fee_range m n (tk_fee w Hw mk m Hm) Hn) as Hfee.
  split; [|split].
  - intros x b v Hvs (t & Htv & Htm & Hto & (Htd & Hmo & Hgu) & Htb). unfold vault_has. cbn.
    destruct (decide (v = dst)) as [->|Hvd].
    + exists (set_t_amount (t_amount d + (n - tok_fee m n)) d). rewrite lookup_insert.
      assert (t = d) as -> by congruence. cbn. repeat split; cbn; try assumption. lia.
    + rewrite lookup_insert_ne by congruence. rewrite lookup_insert_ne by congruence.
      exists t. repeat split; assumption.
  - intros x b (t & Htv & Htm & Hto & (Htd & Hmo & Hgu) & Htb). unfold vault_has. cbn.
    rewrite lookup_insert_ne by congruence. rewrite lookup_insert. eexists. split; [reflexivity|].
    assert (t = s) as -> by congruence. cbn.
    unfold tok_authorize in Hau. rewrite Htd in Hau. inv Hau.
    repeat split; cbn; try assumption; try congruence. lia.
  - intros x pr' (mx & Hmx & Hpr & Hgood). unfold mint_good. cbn.
    destruct (decide (x = mk)) as [->|Hxm].
    + assert (mx = m) as -> by congruence. eexists. rewrite lookup_insert. split; [reflexivity|].
      split; [assumption|]. exact Hgood.
    + exists mx. rewrite lookup_insert_ne by congruence. auto.
Qed.

(** A transfer into a vault by a user adds the net amount. *)
Lemma tok_transfer_in w pr src mk dst auth n ok w' l b m :
  tokens_ok w -> 0 <= n -> auth <> PAuth -> w_mints w !! mk = Some m ->
  is_supported_mint m = true -> vault_has w mk b dst ->
  tok_transfer w pr src mk dst auth n ok = Ok (w', l) ->
  vault_has w' mk (b + (n - tok_fee m n)) dst.
Proof.
  intros Hw Hn Ha Hmk Hgood (t & Htv & Htm & Hto & (Htd & Hmo & Hgu) & Htb) Ht. apply tok_transfer_inv in Ht.
  destruct Ht as (m' & s & d & dl & Hm & Hs & Hd & _ & Hle & Hms & Hmd & _ & _ & Hau & Hcase).
  assert (m' = m) as -> by congruence. assert (t = d) as -> by congruence.
  destruct Hcase as [(Heq & -> & _)|(Hne & _ & _ & -> & _)].
  - exfalso. subst src. assert (s = d) as -> by congruence.
    unfold tok_authorize in Hau. rewrite Htd in Hau. inv Hau.
    rewrite (supported_no_delegate m Hgood) in *. rewrite Hto in *.
    apply orb_true_iff in Hv as [Hv|Hv]; clean_bool; congruence.
  - unfold vault_has. cbn. rewrite lookup_insert. eexists. split; [reflexivity|]. cbn.
    repeat split; cbn; try assumption. lia.
Qed.

(** * Burns *)

Lemma tok_burn_inv w pr src mk auth n w' l :
  tok_burn w pr src mk auth n = Ok (w', l) ->
  exists m s dl,
    w_mints w !! mk = Some m /\ w_tokens w !! src = Some s /\ m_prog m = pr /\
    n <= t_amount s /\ t_mint s = mk /\ t_frozen s = false /\ tok_authorize m s auth n = Ok dl /\
    w' = upd_mint mk (set_m_supply (m_supply m - n) m)
           (upd_token src (set_t_delegate dl (set_t_amount (t_amount s - n) s)) w) /\
    l = [FxBurn src mk n].
Proof.
  unfold tok_burn, get_mint, get_token. intros Ht. inv Ht. injection Ht as <- <-. clean_bool. subst.
  exists v, v0, v5. repeat (split; [assumption || reflexivity|]). reflexivity.
Qed.

Lemma tok_burn_rest w pr src mk auth n w' l :
  tok_burn w pr src mk auth n = Ok (w', l) -> same_rest w w'.
Proof.
  intros Ht. apply tok_burn_inv in Ht. destruct Ht as (? & ? & ? & _ & _ & _ & _ & _ & _ & _ & -> & _).
  repeat split.
Qed.

Lemma tok_burn_ok w pr src mk auth n w' l :
  tokens_ok w -> 0 <= n -> tok_burn w pr src mk auth n = Ok (w', l) -> tokens_ok w'.
Proof.
  intros Hw Hn Ht. apply tok_burn_inv in Ht.
  destruct Ht as (m & s & dl & Hm & Hs & _ & Hle & Hms & _ & _ & -> & _).
  set (s' := set_t_delegate dl (set_t_amount (t_amount s - n) s)).
  assert (Hsum : forall x, msum (held x) (<[src := s']> (w_tokens w))
                 = msum (held x) (w_tokens w) - (if bool_decide (x = mk) then n else 0)).
  { intros x. rewrite (msum_update _ _ _ s) by assumption. unfold held. subst s'. cbn.
    rewrite Hms. destruct (decide (mk = x)) as [->|Hx].
    - rewrite !bool_decide_eq_true_2 by reflexivity. lia.
    - rewrite !bool_decide_eq_false_2 by congruence. lia. }
  eapply put_tokens_mints; [..|reflexivity|reflexivity]; cbn.
  - intros k t Hk. destruct (decide (k = src)) as [->|Hks].
    + rewrite lookup_insert in Hk. injection Hk as <-. subst s'. cbn. lia.
    + rewrite lookup_insert_ne in Hk by congruence. eapply tk_amount; eassumption.
  - intros x mx Hx. rewrite Hsum. destruct (decide (x = mk)) as [->|Hxm].
    + rewrite lookup_insert in Hx. injection Hx as <-. cbn.
      rewrite bool_decide_eq_true_2 by reflexivity.
      destruct (tk_supply w Hw mk m Hm). pose proof (tk_fee w Hw mk m Hm) as Hf.
      pose proof (tk_withheld w Hw mk m Hm).
      split; [exact Hf|]. lia.
    + rewrite lookup_insert_ne in Hx by congruence. rewrite bool_decide_eq_false_2 by assumption.
      destruct (tk_supply w Hw x mx Hx). pose proof (tk_withheld w Hw x mx Hx).
      split; [exact (tk_fee w Hw x mx Hx)|]. lia.
  - intros x Hx. rewrite Hsum. apply lookup_insert_None in Hx as [Hx Hxm].
    rewrite bool_decide_eq_false_2 by congruence. rewrite (tk_nomint w Hw x Hx). lia.
Qed.

Lemma tok_burn_kept w pr src mk auth n w' l :
  auth <> PAuth -> tok_burn w pr src mk auth n = Ok (w', l) -> vaults_kept w w'.
Proof.
  intros Ha Ht. apply tok_burn_inv in Ht.
  destruct Ht as (m & s & dl & Hm & Hs & _ & Hle & Hms & _ & Hau & -> & _).
  split.
  - intros x b v pr' (mx & Hmx & Hpr & Hgood) (t & Htv & Htm & Hto & (Htd & Hmo & Hgu) & Htb). unfold vault_has. cbn.
    destruct (decide (v = src)) as [->|Hvs].
    + assert (t = s) as -> by congruence. exfalso. assert (mx = m) as -> by congruence.
      unfold tok_authorize in Hau. rewrite Htd in Hau. inv Hau.
      rewrite (supported_no_delegate m Hgood) in *. rewrite Hto in *.
      apply orb_true_iff in Hv as [Hv|Hv]; clean_bool; congruence.
    + rewrite lookup_insert_ne by congruence. exists t. repeat split; assumption.
  - intros x pr' (mx & Hmx & Hpr & Hgood). unfold mint_good. cbn.
    destruct (decide (x = mk)) as [->|Hxm].
    + assert (mx = m) as -> by congruence. eexists. rewrite lookup_insert. split; [reflexivity|].
      split; [assumption|]. exact Hgood.
    + exists mx. rewrite lookup_insert_ne by congruence. auto.
Qed.

Lemma tok_burn_out w pr src mk n w' l :
  tok_burn w pr src mk PAuth n = Ok (w', l) ->
  (forall x b v, v <> src -> vault_has w x b v -> vault_has w' x b v) /\
  (forall x b, vault_has w x b src -> vault_has w' x (b - n) src) /\
  (forall x pr, mint_good w pr x -> mint_good w' pr x).
Proof.
  intros Ht. apply tok_burn_inv in Ht.
  destruct Ht as (m & s & dl & Hm & Hs & _ & Hle & Hms & _ & Hau & -> & _).
  split; [|split].
  - intros x b v Hvs (t & Htv & Htm & Hto & (Htd & Hmo & Hgu) & Htb). unfold vault_has. cbn.
    rewrite lookup_insert_ne by congruence. exists t. repeat split; assumption.
  - intros x b (t & Htv & Htm & Hto & (Htd & Hmo & Hgu) & Htb). unfold vault_has. cbn.
    rewrite lookup_insert. eexists. split; [reflexivity|].
    assert (t = s) as -> by congruence. cbn.
    unfold tok_authorize in Hau. rewrite Htd in Hau. inv Hau.
    repeat split; cbn; try assumption; try congruence. lia.
  - intros x pr' (mx & Hmx & Hpr & Hgood). unfold mint_good. cbn.
    destruct (decide (x = mk)) as [->|Hxm].
    + assert (mx = m) as -> by congruence. eexists. rewrite lookup_insert. split; [reflexivity|].
      split; [assumption|]. exact Hgood.
    + exists mx. rewrite lookup_insert_ne by congruence. auto.
Qed.

(** * Transfer fee arithmetic of token2022.rs *)

(** The gross amount computed for a wanted net amount delivers exactly that net amount. *)
Lemma fee_included_exact m n g :
  0 <= n -> mint_fee_ok m -> calculate_transfer_fee_included_amount m n = Ok g ->
  g - tok_fee m g = n /\ 0 <= n <= g /\ (n <= U64MAX -> g <= U64MAX).
Proof.
  intros Hn Hm Hg. unfold calculate_transfer_fee_included_amount in Hg.
  destruct (Z.eqb_spec n 0) as [->|Hn0].
  { inv Hg. subst g. pose proof (tok_fee_range m 0 Hm ltac:(lia)). lia. }
  unfold tok_fee. destruct (get_epoch_transfer_fee m) as [f|] eqn:Hf.
  - assert (Hfo : fee_ok f).
    { unfold get_epoch_transfer_fee in Hf. destruct (m_prog m); [discriminate|]. auto. }
    inv Hg. clean_bool. subst.
    assert (0 <= v).
    { destruct (Z.le_gt_cases 0 v) as [|Hneg]; [assumption|exfalso].
      destruct Hfo as (Hb & Hmx). unfold spl_calculate_fee in Hv1.
      destruct ((f_bps f =? 0) || _) eqn:Hz; [lia|]. apply orb_false_iff in Hz as [Hz1 Hz2].
      clean_bool.
      pose proof (div_ceil_bounds ((n + v) * f_bps f) MAX_FEE_BASIS_POINTS ltac:(reflexivity)) as Hc.
      assert (v = div_ceil ((n + v) * f_bps f) MAX_FEE_BASIS_POINTS) as Hvc by lia.
      rewrite <- Hvc in Hc. num.
      destruct (Z.le_gt_cases 0 (n + v)).
      - assert (0 <= (n + v) * f_bps f) by nia. lia.
      - assert ((n + v) * 10000 <= (n + v) * f_bps f) by nia. lia. }
    lia.
  - inv Hg. subst. lia.
Qed.
