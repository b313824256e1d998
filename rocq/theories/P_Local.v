(** C99: an instruction depends only on the accounts passed to it, so instructions whose accounts do
    not collide can be run in either order, or side by side. *)
From Coq Require Import Lia String.
From Verif Require Import Base Math State Handlers Token World Instr Exec Spec Tactics Sha256 Layout Borsh Entry
  TokenFacts Inv Acct Funs Steps Init Preserve Reach Did Trans Flow P_Access P_Merkle P_Layout P_Borsh P_Entry Scenario.

(** * Specification *)

(** A mint, without the withheld fees that the model collects there (Token-2022 keeps them in the
    receiving accounts; no instruction reads them). *)
Definition bare (m : mint) : mint := set_m_withheld 0 m.

(** The two ledgers hold the same at address [a]... *)
Definition same_at (w1 w2 : world) (a : addr) : Prop :=
  w_presales w1 !! a = w_presales w2 !! a /\ w_escrows w1 !! a = w_escrows w2 !! a /\
  w_tokens w1 !! a = w_tokens w2 !! a /\ bare <$> w_mints w1 !! a = bare <$> w_mints w2 !! a /\
  w_fixed w1 !! a = w_fixed w2 !! a /\ w_merkles w1 !! a = w_merkles w2 !! a /\
  w_opers w1 !! a = w_opers w2 !! a /\ w_servers w1 !! a = w_servers w2 !! a.
(** ...or at all addresses of [P], at the same time. *)
Definition agree (P : list addr) (w1 w2 : world) : Prop :=
  w_now w1 = w_now w2 /\ forall a, a ∈ P -> same_at w1 w2 a.
(** The whole ledger is the same. *)
Definition same_ledger (w1 w2 : world) : Prop := w_now w1 = w_now w2 /\ forall a, same_at w1 w2 a.

(** The same outcome, as far as [P] goes: the same error, or the same transfers and events and the
    same accounts. *)
Definition same_outcome (P : list addr) (r1 r2 : res (world * list fx)) : Prop :=
  match r1, r2 with
  | Ok (w1, l1), Ok (w2, l2) => l1 = l2 /\ agree P w1 w2
  | Err e1, Err e2 => e1 = e2
  | _, _ => False
  end.

(** * Two runs side by side *)

Definition rel {A B} (R : A -> B -> Prop) (r1 : res A) (r2 : res B) : Prop :=
  match r1, r2 with Ok a, Ok b => R a b | Err e1, Err e2 => e1 = e2 | _, _ => False end.

Lemma rel_bind {A B C D} (S : A -> B -> Prop) (R : C -> D -> Prop) r1 r2 f1 f2 :
  rel S r1 r2 -> (forall a b, S a b -> rel R (f1 a) (f2 b)) -> rel R (rbind r1 f1) (rbind r2 f2).
Proof. destruct r1, r2; cbn; auto; intros; subst; try contradiction; auto. Qed.
Lemma rel_same {A C D} (R : C -> D -> Prop) (r : res A) f1 f2 :
  (forall a, r = Ok a -> rel R (f1 a) (f2 a)) -> rel R (rbind r f1) (rbind r f2).
Proof. destruct r; cbn; auto. Qed.
Lemma rel_ok_or {A C D} (R : C -> D -> Prop) (x1 x2 : option A) e f1 f2 :
  x1 = x2 -> (forall a, rel R (f1 a) (f2 a)) -> rel R (rbind (ok_or x1 e) f1) (rbind (ok_or x2 e) f2).
Proof. intros ->. destruct x2; cbn; auto. Qed.
Lemma rel_mint {C D} (R : C -> D -> Prop) (x1 x2 : option mint) e f1 f2 :
  bare <$> x1 = bare <$> x2 -> (forall a b, bare a = bare b -> rel R (f1 a) (f2 b)) ->
  rel R (rbind (ok_or x1 e) f1) (rbind (ok_or x2 e) f2).
Proof. destruct x1, x2; cbn; try discriminate; auto. intros E HR. apply HR. congruence. Qed.

Section P.
Context (P : list addr).

Lemma agree_clock w1 w2 : agree P w1 w2 -> clock w1 = clock w2.
Proof. intros [E _]. unfold clock. rewrite E. reflexivity. Qed.
Lemma agree_presale w1 w2 a : agree P w1 w2 -> a ∈ P -> w_presales w1 !! a = w_presales w2 !! a.
Proof. intros [_ E] Ha. apply E, Ha. Qed.
Lemma agree_escrow w1 w2 a : agree P w1 w2 -> a ∈ P -> w_escrows w1 !! a = w_escrows w2 !! a.
Proof. intros [_ E] Ha. apply E, Ha. Qed.
Lemma agree_token w1 w2 a : agree P w1 w2 -> a ∈ P -> w_tokens w1 !! a = w_tokens w2 !! a.
Proof. intros [_ E] Ha. apply E, Ha. Qed.
Lemma agree_mint w1 w2 a : agree P w1 w2 -> a ∈ P -> bare <$> w_mints w1 !! a = bare <$> w_mints w2 !! a.
Proof. intros [_ E] Ha. apply E, Ha. Qed.
Lemma agree_fixed w1 w2 a : agree P w1 w2 -> a ∈ P -> w_fixed w1 !! a = w_fixed w2 !! a.
Proof. intros [_ E] Ha. apply E, Ha. Qed.
Lemma agree_merkle w1 w2 a : agree P w1 w2 -> a ∈ P -> w_merkles w1 !! a = w_merkles w2 !! a.
Proof. intros [_ E] Ha. apply E, Ha. Qed.
Lemma agree_oper w1 w2 a : agree P w1 w2 -> a ∈ P -> w_opers w1 !! a = w_opers w2 !! a.
Proof. intros [_ E] Ha. apply E, Ha. Qed.
Lemma agree_server w1 w2 a : agree P w1 w2 -> a ∈ P -> w_servers w1 !! a = w_servers w2 !! a.
Proof. intros [_ E] Ha. apply E, Ha. Qed.

Ltac ag k := intros [E Ha]; split; [exact E|]; intros a Hin; specialize (Ha a Hin);
  destruct Ha as (?&?&?&?&?&?&?&?); repeat split; cbn; try assumption;
  (destruct (decide (a = k)) as [->|?];
     [rewrite ?lookup_insert, ?lookup_delete; reflexivity
     |rewrite ?lookup_insert_ne, ?lookup_delete_ne by congruence; assumption]).
Lemma agree_upd_presale w1 w2 k p : agree P w1 w2 -> agree P (upd_presale k p w1) (upd_presale k p w2).
Proof. ag k. Qed.
Lemma agree_upd_escrow w1 w2 k e : agree P w1 w2 -> agree P (upd_escrow k e w1) (upd_escrow k e w2).
Proof. ag k. Qed.
Lemma agree_del_escrow w1 w2 k : agree P w1 w2 ->
  agree P (put_escrows (delete k (w_escrows w1)) w1) (put_escrows (delete k (w_escrows w2)) w2).
Proof. ag k. Qed.
Lemma agree_upd_token w1 w2 k t : agree P w1 w2 -> agree P (upd_token k t w1) (upd_token k t w2).
Proof. ag k. Qed.
Lemma agree_upd_mint w1 w2 k m1 m2 : bare m1 = bare m2 -> agree P w1 w2 -> agree P (upd_mint k m1 w1) (upd_mint k m2 w2).
Proof.
  intros Em [E Ha]. split; [exact E|]. intros a Hin. specialize (Ha a Hin). destruct Ha as (?&?&?&?&?&?&?&?).
  repeat split; cbn; try assumption. destruct (decide (a = k)) as [->|?].
  - rewrite !lookup_insert. cbn. rewrite Em. reflexivity.
  - rewrite !lookup_insert_ne by congruence. assumption.
Qed.
Lemma agree_put_fixed w1 w2 k x : agree P w1 w2 ->
  agree P (put_fixed (<[k := x]> (w_fixed w1)) w1) (put_fixed (<[k := x]> (w_fixed w2)) w2).
Proof. ag k. Qed.
Lemma agree_del_fixed w1 w2 k : agree P w1 w2 ->
  agree P (put_fixed (delete k (w_fixed w1)) w1) (put_fixed (delete k (w_fixed w2)) w2).
Proof. ag k. Qed.
Lemma agree_put_merkle w1 w2 k x : agree P w1 w2 ->
  agree P (put_merkles (<[k := x]> (w_merkles w1)) w1) (put_merkles (<[k := x]> (w_merkles w2)) w2).
Proof. ag k. Qed.
Lemma agree_del_merkle w1 w2 k : agree P w1 w2 ->
  agree P (put_merkles (delete k (w_merkles w1)) w1) (put_merkles (delete k (w_merkles w2)) w2).
Proof. ag k. Qed.
Lemma agree_put_oper w1 w2 k x : agree P w1 w2 ->
  agree P (put_opers (<[k := x]> (w_opers w1)) w1) (put_opers (<[k := x]> (w_opers w2)) w2).
Proof. ag k. Qed.
Lemma agree_del_oper w1 w2 k : agree P w1 w2 ->
  agree P (put_opers (delete k (w_opers w1)) w1) (put_opers (delete k (w_opers w2)) w2).
Proof. ag k. Qed.
Lemma agree_put_server w1 w2 k x : agree P w1 w2 ->
  agree P (put_servers (<[k := x]> (w_servers w1)) w1) (put_servers (<[k := x]> (w_servers w2)) w2).
Proof. ag k. Qed.
Lemma agree_del_server w1 w2 k : agree P w1 w2 ->
  agree P (put_servers (delete k (w_servers w1)) w1) (put_servers (delete k (w_servers w2)) w2).
Proof. ag k. Qed.

(** What is asked about a mint does not depend on the withheld fees *)
Lemma bare_asks m1 m2 : bare m1 = bare m2 ->
  m_prog m1 = m_prog m2 /\ m_supply m1 = m_supply m2 /\
  is_supported_mint m1 = is_supported_mint m2 /\ has_transfer_hook_program m1 = has_transfer_hook_program m2 /\
  get_epoch_transfer_fee m1 = get_epoch_transfer_fee m2 /\ permanent_delegate m1 = permanent_delegate m2.
Proof.
  destruct m1, m2. unfold bare, set_m_withheld. cbn. intros E. injection E as -> -> -> -> -> -> -> ->.
  repeat split.
Qed.
Lemma bare_native m1 m2 : bare m1 = bare m2 -> m_native m1 = m_native m2.
Proof. destruct m1, m2. unfold bare, set_m_withheld. cbn. intros E. injection E as -> -> -> -> -> -> -> ->. reflexivity. Qed.
Lemma bare_included m1 m2 n : bare m1 = bare m2 ->
  calculate_transfer_fee_included_amount m1 n = calculate_transfer_fee_included_amount m2 n.
Proof.
  intros E. unfold calculate_transfer_fee_included_amount. destruct (bare_asks _ _ E) as (_&_&_&_& -> &_). reflexivity.
Qed.
Lemma bare_excluded m1 m2 n : bare m1 = bare m2 ->
  calculate_transfer_fee_excluded_amount m1 n = calculate_transfer_fee_excluded_amount m2 n.
Proof.
  intros E. unfold calculate_transfer_fee_excluded_amount. destruct (bare_asks _ _ E) as (_&_&_&_& -> &_). reflexivity.
Qed.
Lemma bare_fee m1 m2 n : bare m1 = bare m2 -> tok_fee m1 n = tok_fee m2 n.
Proof. intros E. unfold tok_fee. destruct (bare_asks _ _ E) as (_&_&_&_& -> &_). reflexivity. Qed.
Lemma bare_authorize m1 m2 s a n : bare m1 = bare m2 -> tok_authorize m1 s a n = tok_authorize m2 s a n.
Proof. intros E. unfold tok_authorize. destruct (bare_asks _ _ E) as (_&_&_&_&_& ->). reflexivity. Qed.
Lemma bare_guard m1 m2 s a b : bare m1 = bare m2 -> guard_blocks m1 s a b = guard_blocks m2 s a b.
Proof. intros E. unfold guard_blocks. destruct (bare_asks _ _ E) as (-> &_&_&_&_& ->). reflexivity. Qed.
Lemma bare_memo m1 m2 d : bare m1 = bare m2 ->
  wants_memo m1 d = wants_memo m2 d /\ is_transfer_memo_required m1 d = is_transfer_memo_required m2 d.
Proof. intros E. unfold wants_memo, is_transfer_memo_required. destruct (bare_asks _ _ E) as (-> &_). split; reflexivity. Qed.
Lemma bare_hooks m1 m2 x : bare m1 = bare m2 -> check_hook_accounts m1 x = check_hook_accounts m2 x.
Proof. intros E. unfold check_hook_accounts. destruct (bare_asks _ _ E) as (_&_&_& -> &_). reflexivity. Qed.

(** Same effects, and ledgers that agree *)
Definition alike (x y : world * list fx) : Prop := agree P x.1 y.1 /\ x.2 = y.2.
Lemma rel_alike r1 r2 : rel alike r1 r2 -> same_outcome P r1 r2.
Proof.
  destruct r1 as [[? ?]|], r2 as [[? ?]|]; cbn; auto. intros [? ?]. auto.
Qed.

Lemma rel_transfer w1 w2 pr src mk dst auth n ok :
  agree P w1 w2 -> src ∈ P -> mk ∈ P -> dst ∈ P ->
  rel alike (tok_transfer w1 pr src mk dst auth n ok) (tok_transfer w2 pr src mk dst auth n ok).
Proof.
  intros Ha Hs Hm Hd. unfold tok_transfer, get_mint, get_token.
  apply rel_mint; [apply agree_mint; assumption|]. intros m1 m2 E.
  apply rel_ok_or; [apply agree_token; assumption|]. intros s.
  apply rel_ok_or; [apply agree_token; assumption|]. intros d.
  destruct (bare_asks _ _ E) as (-> &_&_& -> &_&_). rewrite (bare_authorize _ _ _ _ _ E).
  do 5 (apply rel_same; intros ? _). destruct (beq_addr src dst); [split; [exact Ha|reflexivity]|].
  cbv zeta. rewrite (bare_fee _ _ _ E).
  do 2 (apply rel_same; intros ? _). split; [|reflexivity]. cbn [fst].
  apply agree_upd_mint; [|repeat apply agree_upd_token; exact Ha].
  destruct m1, m2; unfold bare, set_m_withheld in *; cbn in *. congruence.
Qed.
Lemma rel_burn w1 w2 pr src mk auth n :
  agree P w1 w2 -> src ∈ P -> mk ∈ P ->
  rel alike (tok_burn_cpi w1 pr src mk auth n) (tok_burn_cpi w2 pr src mk auth n).
Proof.
  intros Ha Hs Hm. unfold tok_burn_cpi, tok_burn, get_mint, get_token.
  apply rel_mint; [apply agree_mint; assumption|]. intros u1 u2 Eu.
  apply rel_ok_or; [apply agree_token; assumption|]. intros s0. rewrite (bare_guard _ _ _ _ _ Eu), (bare_native _ _ Eu).
  do 2 (apply rel_same; intros ? _).
  apply rel_mint; [apply agree_mint; assumption|]. intros m1 m2 E.
  apply rel_ok_or; [apply agree_token; assumption|]. intros s.
  destruct (bare_asks _ _ E) as (-> & Es &_). rewrite (bare_authorize _ _ _ _ _ E).
  do 5 (apply rel_same; intros ? _). split; [|reflexivity]. cbn [fst].
  apply agree_upd_mint; [|repeat apply agree_upd_token; exact Ha].
  destruct m1, m2; unfold bare, set_m_withheld, set_m_supply in *; cbn in *. congruence.
Qed.
Lemma rel_checked w1 w2 pr src mk dst auth n memo cpi ok :
  agree P w1 w2 -> src ∈ P -> mk ∈ P -> dst ∈ P ->
  rel alike (tok_transfer_checked w1 pr src mk dst auth n memo cpi ok)
            (tok_transfer_checked w2 pr src mk dst auth n memo cpi ok).
Proof.
  intros Ha Hs Hm Hd. unfold tok_transfer_checked, get_mint, get_token.
  apply rel_mint; [apply agree_mint; assumption|]. intros m1 m2 E.
  apply rel_ok_or; [apply agree_token; assumption|]. intros s.
  apply rel_ok_or; [apply agree_token; assumption|]. intros d.
  rewrite (proj1 (bare_memo _ _ _ E)), (bare_guard _ _ _ _ _ E).
  do 2 (apply rel_same; intros ? _). apply rel_transfer; assumption.
Qed.
Lemma rel_from_user w1 w2 auth mk src dst pr n memo hooks ok :
  agree P w1 w2 -> src ∈ P -> mk ∈ P -> dst ∈ P ->
  rel alike (transfer_from_user w1 auth mk src dst pr n memo hooks ok)
            (transfer_from_user w2 auth mk src dst pr n memo hooks ok).
Proof.
  intros Ha Hs Hm Hd. unfold transfer_from_user, sends_memo, get_mint, get_token.
  apply rel_mint; [apply agree_mint; assumption|]. intros m1 m2 E.
  apply (rel_bind eq).
  - apply rel_ok_or; [apply agree_token; assumption|]. intros d. rewrite (proj2 (bare_memo _ _ _ E)). reflexivity.
  - intros b ? <-. rewrite (bare_hooks _ _ _ E). apply rel_same; intros ? _. apply rel_checked; assumption.
Qed.
Lemma rel_to_user w1 w2 mk src dst pr n memo hooks ok :
  agree P w1 w2 -> src ∈ P -> mk ∈ P -> dst ∈ P ->
  rel alike (transfer_from_presale_to_user w1 mk src dst pr n memo hooks ok)
            (transfer_from_presale_to_user w2 mk src dst pr n memo hooks ok).
Proof.
  intros Ha Hs Hm Hd. unfold transfer_from_presale_to_user, sends_memo, get_mint, get_token.
  apply rel_mint; [apply agree_mint; assumption|]. intros m1 m2 E.
  apply (rel_bind eq).
  - apply rel_ok_or; [apply agree_token; assumption|]. intros d. rewrite (proj2 (bare_memo _ _ _ E)). reflexivity.
  - intros b ? <-. rewrite (bare_hooks _ _ _ E). apply rel_same; intros ? _. apply rel_checked; assumption.
Qed.
Lemma rel_create w1 w2 p k owner idx cap :
  agree P w1 w2 -> PEscrow k owner idx ∈ P ->
  rel alike (finish_create_escrow w1 p k owner idx cap) (finish_create_escrow w2 p k owner idx cap).
Proof.
  intros Ha Hk. unfold finish_create_escrow, process_create_escrow.
  rewrite (agree_escrow _ _ _ Ha Hk), (agree_clock _ _ Ha). apply rel_same; intros ? _.
  apply rel_same; intros [p' e] _. split; [|reflexivity]. cbn [fst].
  apply agree_upd_escrow, agree_upd_presale, Ha.
Qed.
Lemma same_initialize h k p a f g l :
  (forall x, x ∈ l -> f x = g x) -> handler_initialize h k p a f l = handler_initialize h k p a g l.
Proof.
  intros Hx. destruct h; cbn [handler_initialize]; try reflexivity. destruct l as [|x l]; [reflexivity|].
  rewrite (Hx x) by left. reflexivity.
Qed.
Lemma same_vault w1 w2 k a bm qm o b now bp qp l :
  (forall x, x ∈ l -> w_fixed w1 !! x = w_fixed w2 !! x) ->
  create_presale_vault w1 k a bm qm o b now bp qp l = create_presale_vault w2 k a bm qm o b now bp qp l.
Proof.
  intros Hx. unfold create_presale_vault.
  destruct (presale_initialize _ _ _ _ _ _ _ _ _ _ _ _); cbn [rbind]; [|reflexivity].
  destruct (get_handler _); cbn [rbind]; [|reflexivity]. apply same_initialize, Hx.
Qed.
Lemma rel_take w1 w2 v m er l :
  agree P w1 w2 -> (forall x, x ∈ l -> x ∈ P) ->
  rel (fun x y => bare x.1 = bare y.1 /\ x.2 = y.2 /\ v ∈ P /\ m ∈ P)
    (take_vault_and_mint w1 v m er l) (take_vault_and_mint w2 v m er l).
Proof.
  intros Ha Hl. unfold take_vault_and_mint, get_token, get_mint. destruct l as [|v' [|m' rest]]; [reflexivity..|].
  assert (v' ∈ P) by (apply Hl; left). assert (m' ∈ P) by (apply Hl; right; left).
  apply rel_ok_or; [apply agree_token; assumption|]. intros _.
  apply rel_mint; [apply agree_mint; assumption|]. intros m1 m2 E.
  apply rel_same; intros ? Hv. apply rel_same; intros ? Hm. unfold require, beq_addr in Hv, Hm.
  destruct (bool_decide_reflect (v' = v)); [|discriminate Hv]. destruct (bool_decide_reflect (m' = m)); [|discriminate Hm].
  subst. repeat split; assumption.
Qed.
End P.

Section WithCrypto.
Context `{Crypto} `{Ids}.

(** The accounts passed to an instruction: those of its context, and the remaining accounts *)
Definition passed (o : op) : list addr := accounts_of o ++ (hooks_of o).1.

Ltac mem := match goal with Hp : forall a, a ∈ passed _ -> a ∈ _ |- _ => apply Hp end; unfold passed; cbn [accounts_of hooks_of fst app];
  repeat first [apply elem_of_list_here | apply elem_of_list_further].
(** steps that do not look at the ledger, and lookups *)
Ltac go Ha := repeat first
  [ rewrite (agree_clock _ _ _ Ha)
  | apply rel_ok_or; [first [apply (agree_presale _ _ _ _ Ha) | apply (agree_escrow _ _ _ _ Ha) | apply (agree_token _ _ _ _ Ha)
      | apply (agree_fixed _ _ _ _ Ha) | apply (agree_merkle _ _ _ _ Ha) | apply (agree_oper _ _ _ _ Ha)
      | apply (agree_server _ _ _ _ Ha)]; mem | intros ?]
  | apply rel_same; let x := fresh "x" in intros x _; repeat match type of x with (_ * _)%type => destruct x as [x ?] end ].
Ltac goe Ha := match goal with
  | |- rel _ (rbind (require (bool_decide (w_presales _ !! ?k = None)) _) _) _ =>
      rewrite (agree_presale _ _ _ k Ha) by mem
  | |- rel _ (rbind (require (bool_decide (w_fixed _ !! ?k = None)) _) _) _ => rewrite (agree_fixed _ _ _ k Ha) by mem
  | |- rel _ (rbind (require (bool_decide (w_tokens _ !! ?k = None)) _) _) _ => rewrite (agree_token _ _ _ k Ha) by mem
  | |- rel _ (rbind (require (bool_decide (w_merkles _ !! ?k = None)) _) _) _ => rewrite (agree_merkle _ _ _ k Ha) by mem
  | |- rel _ (rbind (require (bool_decide (w_opers _ !! ?k = None)) _) _) _ => rewrite (agree_oper _ _ _ k Ha) by mem
  | |- rel _ (rbind (require (bool_decide (w_servers _ !! ?k = None)) _) _) _ => rewrite (agree_server _ _ _ k Ha) by mem
  end.
Ltac fin Ha := split; [cbn [fst]|reflexivity];
  repeat first [exact Ha | apply agree_upd_presale | apply agree_upd_escrow | apply agree_del_escrow
    | apply agree_put_fixed | apply agree_del_fixed | apply agree_put_merkle | apply agree_del_merkle
    | apply agree_put_oper | apply agree_del_oper | apply agree_put_server | apply agree_del_server].
Ltac mint Ha m1 m2 E := apply rel_mint; [apply (agree_mint _ _ _ _ Ha); mem | intros m1 m2 E].
Ltac moved := let w1 := fresh "w1" in let w2 := fresh "w2" in let f1 := fresh "f" in let f2 := fresh "f" in
  intros [w1 f1] [w2 f2] [?Hw Hf]; cbn [fst snd] in *; subst f2.

Lemma step_alike P o w1 w2 : (forall a, a ∈ passed o -> a ∈ P) ->
  env_op o = false -> agree P w1 w2 -> rel (alike P) (step w1 o) (step w2 o).
Proof.
  intros Hp He Ha. destruct o; try discriminate He; cbn [step]; clear He.
  - unfold initialize_fixed_price_presale_args. go Ha. goe Ha. go Ha. fin Ha.
  - unfold close_fixed_price_presale_args. go Ha. fin Ha.
  - unfold initialize_presale, get_mint. cbv zeta. go Ha. mint Ha bm1 bm2 Eb. mint Ha qm1 qm2 Ec. go Ha. 
    repeat (goe Ha; go Ha).
    destruct (bare_asks _ _ Eb) as (-> &_& -> &_). destruct (bare_asks _ _ Ec) as (-> &_& -> &_). go Ha.
    match goal with |- rel _ (rbind (create_presale_vault ?u1 _ _ _ _ _ _ _ _ _ _) _) (rbind (create_presale_vault ?u2 _ _ _ _ _ _ _ _ _ _) _) =>
      pose proof (agree_upd_token _ _ _ _ _ (agree_upd_token _ _ _ _ _ Ha) : agree _ u1 u2) as Hv end.
    rewrite (same_vault _ _ _ _ _ _ _ _ _ _ _ _
      (fun y Hy => agree_fixed _ _ _ y Hv (Hp y (proj2 (elem_of_app _ _ _) (or_intror Hy))))).
    go Ha. rewrite (bare_included _ _ _ Eb). go Ha. eapply rel_bind; [apply rel_from_user; [exact Hv|mem..]|].
    moved. destruct (match locked_option _ with Some _ => _ | None => _ end). fin Hw.
  - unfold create_merkle_root_config, get_presale. go Ha. cbv zeta. goe Ha. go Ha. fin Ha.
  - unfold close_merkle_root_config, get_presale. go Ha. fin Ha.
  - unfold create_permissionless_escrow, get_presale. go Ha. apply rel_create; [exact Ha|mem].
  - unfold create_permissioned_escrow_with_creator, get_presale. go Ha. apply rel_create; [exact Ha|mem].
  - unfold create_permissioned_escrow_with_merkle_proof, get_presale. go Ha. apply rel_create; [exact Ha|mem].
  - unfold create_operator. cbv zeta. go Ha. goe Ha. go Ha. fin Ha.
  - unfold revoke_operator. go Ha. fin Ha.
  - unfold deposit, get_presale, get_escrow, get_mint. go Ha. mint Ha m1 m2 E. go Ha. cbv zeta. go Ha.
    rewrite (bare_included _ _ _ E). go Ha. eapply rel_bind; [apply rel_from_user; [exact Ha|mem..]|].
    moved. fin Hw.
  - unfold withdraw, get_presale, get_escrow, get_mint. go Ha. mint Ha m1 m2 E. go Ha.
    eapply rel_bind; [apply rel_to_user; [exact Ha|mem..]|]. moved. rewrite (bare_excluded _ _ _ E). go Ha. fin Hw.
  - unfold claim, get_presale, get_escrow, get_mint, get_token. go Ha. mint Ha m1 m2 E. go Ha.
    cbv zeta.
    match type of Ha with agree ?Q _ _ =>
      eapply (rel_bind (fun x y => x.1.1 = y.1.1 /\ alike Q (x.1.2, x.2) (y.1.2, y.2))) end.
    + destruct (0 <? _); [|split; [reflexivity|split; [exact Ha|reflexivity]]].
      go Ha. eapply rel_bind; [apply rel_to_user; [exact Ha|mem..]|]. moved. repeat split; [apply Hw|apply Hw; assumption..].
    + intros [[[p2 e2] w1'] f1] [[[p3 e3] w2'] f2] [E1 [Hw E2]]. cbn [fst snd] in *. injection E1 as <- <-. subst f2.
      rewrite (bare_excluded _ _ _ E). go Ha. fin Hw.
  - unfold withdraw_remaining_quote, get_presale, get_escrow, get_mint, get_token. go Ha. mint Ha m1 m2 E. go Ha.
    cbv zeta. go Ha. eapply (rel_bind (alike _)).
    { destruct (0 <? _); [apply rel_to_user; [exact Ha|mem..]|split; [exact Ha|reflexivity]]. }
    moved. rewrite (bare_excluded _ _ _ E). go Ha. fin Hw.
  - unfold perform_unsold_base_token_action, get_presale, get_mint, get_token. go Ha. mint Ha m1 m2 E.
    destruct (bare_asks _ _ E) as (-> &_). go Ha. cbv zeta. eapply (rel_bind (alike _)).
    { destruct (uaction_of_u8 _); [|apply rel_burn; [exact Ha|mem..]].
      go Ha. apply rel_to_user; [exact Ha|mem..]. }
    moved. fin Hw.
  - unfold close_escrow, get_presale, get_escrow. go Ha. split; [|reflexivity]. cbn [fst].
    apply (agree_del_escrow _ (upd_presale _ _ _) (upd_presale _ _ _)), agree_upd_presale, Ha.
  - unfold creator_withdraw, get_presale. go Ha. cbv zeta. go Ha.
    match type of Ha with agree ?Q _ _ => eapply (rel_bind (fun x y =>
      let '(a1, v1, k1, m1, r1, t1) := x in let '(a2, v2, k2, m2, r2, t2) := y in
      a1 = a2 /\ v1 = v2 /\ k1 = k2 /\ bare m1 = bare m2 /\ r1 = r2 /\ t1 = t2 /\
      v1 ∈ Q /\ k1 ∈ Q)) end.
    { destruct (get_progress _ _); try reflexivity.
      all: eapply rel_bind; [apply rel_take; [exact Ha|]; intros y Hy; apply Hp, elem_of_app; right; exact Hy|].
      all: intros [? ?] [? ?] (? & ? & ? & ?); cbn [fst snd] in *; repeat split; assumption. }
    intros [[[[[a1 v1] k1] m1] r1] t1] [[[[[a2 v2] k2] m2] r2] t2] (<- & <- & <- & E & <- & <- & Hv & Hk).
    go Ha. eapply rel_bind; [apply rel_to_user; [exact Ha|exact Hv|exact Hk|mem]|].
    moved. rewrite (bare_excluded _ _ _ E). go Ha. fin Hw.
  - unfold refresh_escrow, get_presale, get_escrow. go Ha. fin Ha.
  - unfold create_permissioned_server_metadata, get_presale. cbv zeta. go Ha. goe Ha. go Ha. fin Ha.
  - unfold close_permissioned_server_metadata, get_presale. go Ha. fin Ha.
  - unfold creator_collect_fee, get_presale, get_mint, get_token. go Ha. mint Ha m1 m2 E. go Ha. cbv zeta.
    eapply (rel_bind (alike _)).
    { destruct (0 <? _); [|split; [exact Ha|reflexivity]]. go Ha. apply rel_to_user; [exact Ha|mem..]. }
    moved. rewrite (bare_excluded _ _ _ E). go Ha. fin Hw.
Qed.

(** * C99 *)

Definition keys (c : call) : list addr := map am_key (cl_accounts c).

(** What a call does, and whether it is accepted, depends on nothing but the accounts passed to it and
    the time.  (And on other addresses it changes nothing, C75.) *)
Theorem C99_depends_on_its_accounts c P w1 w2 :
  (forall a, a ∈ keys c -> a ∈ P) -> agree P w1 w2 -> same_outcome P (entry w1 c) (entry w2 c).
Proof.
  intros Hk Ha. unfold entry. destruct (call_op c) as [o|er] eqn:Ho; cbn [rbind]; [|reflexivity].
  destruct (C74_calls_sound _ _ Ho) as (Hn & _). destruct (C74_accounts _ _ Ho) as (rest & E1 & E2 & _).
  apply rel_alike, step_alike; [|exact Hn|exact Ha].
  intros a Hin. apply Hk. unfold keys. rewrite E1. apply elem_of_app in Hin as [Hin|Hin]; apply elem_of_app; [left; exact Hin|].
  right. destruct (reads_remaining o) eqn:Er; [rewrite (E2 eq_refl) in Hin; exact Hin|].
  destruct o; try discriminate Er; cbn [hooks_of fst] in Hin; apply elem_of_nil in Hin; contradiction.
Qed.

(** ** Nothing else changes *)

Definition shape (m : mint) : mint := set_m_supply 0 (bare m).
Definition shapes (w w' : world) : Prop := w_now w' = w_now w /\ forall a, shape <$> w_mints w' !! a = shape <$> w_mints w !! a.
Lemma shapes_same w w' : w_now w' = w_now w -> w_mints w' = w_mints w -> shapes w w'.
Proof. intros E1 E2. split; [exact E1|]. intros a. rewrite E2. reflexivity. Qed.
Lemma shapes_transfer w pr src mk dst auth n ok w' l : tok_transfer w pr src mk dst auth n ok = Ok (w', l) -> shapes w w'.
Proof.
  intros Ht. apply tok_transfer_inv in Ht as (m & s & d & dl & Hm & _ & _ & _ & _ & _ & _ & _ & _ & _ & Hc).
  destruct Hc as [(_ & -> & _)|(_ & _ & _ & -> & _)]; [split; reflexivity|]. split; [reflexivity|].
  intros a. cbn. destruct (decide (a = mk)) as [->|Hne]; [rewrite lookup_insert, Hm; reflexivity|].
  rewrite lookup_insert_ne by congruence. reflexivity.
Qed.
Lemma shapes_paid w pr src mk dst n ok w' l : paid w pr src mk dst n ok w' l -> shapes w w'.
Proof. intros [[_ Ht]|(_ & -> & _)]; [eapply shapes_transfer; exact Ht|split; reflexivity]. Qed.
Lemma shapes_burn w pr src mk auth n w' l : tok_burn w pr src mk auth n = Ok (w', l) -> shapes w w'.
Proof.
  intros Ht. apply tok_burn_inv in Ht as (m & s & dl & Hm & _ & _ & _ & _ & _ & _ & -> & _). split; [reflexivity|].
  intros a. cbn. destruct (decide (a = mk)) as [->|Hne]; [rewrite lookup_insert, Hm; reflexivity|].
  rewrite lookup_insert_ne by congruence. reflexivity.
Qed.
Lemma shapes_create w p k owner idx cap w' l : finish_create_escrow w p k owner idx cap = Ok (w', l) -> shapes w w'.
Proof. intros Hf. apply finish_create_inv in Hf as (r & _ & _ & _ & _ & _ & _ & _ & -> & _). split; reflexivity. Qed.
Ltac inner := match goal with |- shapes ?w (upd_escrow _ _ (upd_presale _ _ ?u)) => change (shapes w u)
  | |- shapes ?w (upd_presale _ _ ?u) => change (shapes w u) end.
Lemma step_shapes w o w' l : env_op o = false -> step w o = Ok (w', l) -> shapes w w'.
Proof.
  intros He Hs. destruct o; try discriminate He; cbn [step] in Hs.
  - apply init_fixed_inv in Hs as (_ & _ & _ & _ & -> & _). split; reflexivity.
  - apply close_fixed_inv in Hs as (x & _ & _ & _ & -> & _). split; reflexivity.
  - apply init_inv in Hs as (bm & qm & p & rest & hooks & rest' & pool & am & w2 & fx & Hs). cbv zeta in Hs.
    destruct Hs as (_ & _ & _ & _ & _ & _ & _ & _ & _ & _ & _ & _ & _ & _ & _ & _ & _ & _ & _ & Ht & -> & _).
    apply shapes_transfer in Ht. exact Ht.
  - apply create_merkle_inv in Hs as (p & _ & _ & _ & _ & _ & _ & _ & _ & -> & _). split; reflexivity.
  - apply close_merkle_inv in Hs as (p & x & _ & _ & _ & _ & _ & _ & _ & -> & _). split; reflexivity.
  - apply create_permissionless_inv in Hs as (p & _ & _ & _ & Hf). eapply shapes_create; exact Hf.
  - apply create_authority_inv in Hs as (p & x & _ & _ & _ & _ & _ & _ & _ & _ & _ & Hf). eapply shapes_create; exact Hf.
  - apply create_merkle_escrow_inv in Hs as (p & x & _ & _ & _ & _ & _ & _ & _ & _ & _ & Hf). eapply shapes_create; exact Hf.
  - apply create_operator_inv in Hs as (_ & _ & -> & _). split; reflexivity.
  - apply revoke_operator_inv in Hs as (x & _ & _ & _ & -> & _). split; reflexivity.
  - apply deposit_inv in Hs. decompose [ex and] Hs. subst w'. inner. eapply shapes_transfer; eassumption.
  - apply withdraw_inv in Hs. decompose [ex and] Hs. subst w'. inner. eapply shapes_transfer; eassumption.
  - apply claim_inv in Hs. destruct Hs as (p & e & m & hh & e1 & net & p2 & e2 & w1 & fx & Hs).
    assert (w' = upd_escrow escrow e2 (upd_presale presale p2 w1)) as -> by tauto. change (shapes w w1).
    destruct Hs as (_ & _ & _ & _ & _ & _ & _ & _ & _ & _ & _ & _ & Hs & _).
    destruct Hs as [(_ & r & _ & _ & _ & _ & Ht)|(_ & _ & _ & -> & _)]; [eapply shapes_transfer; exact Ht|split; reflexivity].
  - apply remaining_quote_inv in Hs. decompose [ex and] Hs. subst w'. inner. eapply shapes_paid; eassumption.
  - apply unsold_inv in Hs. destruct Hs as (p & m & t & hh & am & w1 & fx & Hs).
    assert (w' = upd_presale presale (set_p_unsold_done 1 p) w1) as -> by tauto. change (shapes w w1).
    destruct Hs as (_ & _ & _ & _ & _ & _ & _ & _ & _ & _ & _ & _ & _ & _ & [ [_ Ht]|[_ Ht]] & _);
      [eapply shapes_burn; exact Ht|eapply shapes_transfer; exact Ht].
  - apply close_escrow_inv in Hs. decompose [ex and] Hs. subst w'. split; reflexivity.
  - apply creator_withdraw_inv in Hs as (p & m & net & w1 & fx & _ & Hp & _ & _ & _ & Hs & ->). change (shapes w w1).
    destruct Hs as [(Hg & _ & Ht & _)|(Hg & _ & Ht & _)]; eapply shapes_transfer; exact Ht.
  - apply refresh_inv in Hs as (p & e & e1 & _ & _ & _ & _ & _ & -> & _). split; reflexivity.
  - apply create_server_inv in Hs as (p & _ & _ & _ & _ & _ & _ & -> & _). split; reflexivity.
  - apply close_server_inv in Hs as (p & x & _ & _ & _ & _ & _ & _ & -> & _). split; reflexivity.
  - apply collect_fee_inv in Hs. decompose [ex and] Hs. subst w'. inner. eapply shapes_paid; eassumption.
Qed.

Lemma same_at_refl w a : same_at w w a.
Proof. repeat split. Qed.
Lemma same_at_sym w1 w2 a : same_at w1 w2 a -> same_at w2 w1 a.
Proof. intros (?&?&?&?&?&?&?&?). repeat split; symmetry; assumption. Qed.
Lemma same_at_trans w1 w2 w3 a : same_at w1 w2 a -> same_at w2 w3 a -> same_at w1 w3 a.
Proof. intros (?&?&?&?&?&?&?&?) (?&?&?&?&?&?&?&?). repeat split; etransitivity; eassumption. Qed.

Notation call_run w c := (happens w (HCall c)) (only parsing).

Lemma kept_at w c a : ~ writable c a -> same_at w (call_run w c) a.
Proof.
  intros Ha. cbn [happens]. destruct (entry w c) as [[w' l]|] eqn:He; [|apply same_at_refl].
  destruct (C75_writable _ _ _ _ _ He Ha) as (E1 & E2 & E3 & E4 & E5 & E6 & E7 & E8).
  repeat split; try (symmetry; assumption).
  unfold entry in He. destruct (call_op c) as [o|] eqn:Ho; [|discriminate He]. cbn [rbind] in He.
  destruct (C74_calls_sound _ _ Ho) as (Hn & _). destruct (step_shapes _ _ _ _ Hn He) as [_ Hsh]. specialize (Hsh a).
  destruct (w_mints w !! a) as [m|], (w_mints w' !! a) as [m'|]; cbn in *; try discriminate; [|reflexivity].
  destruct m, m'. unfold shape, bare, set_m_supply, set_m_withheld in *. cbn in *. congruence.
Qed.
Lemma now_at w c : w_now (call_run w c) = w_now w.
Proof.
  cbn [happens]. destruct (entry w c) as [[w' l]|] eqn:He; [|reflexivity].
  unfold entry in He. destruct (call_op c) as [o|] eqn:Ho; [|discriminate He]. cbn [rbind] in He.
  destruct (C74_calls_sound _ _ Ho) as (Hn & _). apply (step_shapes _ _ _ _ Hn He).
Qed.

(** The rule by which the runtime runs transactions side by side: what one may write, the other does not
    mention. *)
Definition apart (c1 c2 : call) : Prop := forall a,
  (writable c1 a -> a ∉ keys c2) /\ (writable c2 a -> a ∉ keys c1).
Lemma apart_sym c1 c2 : apart c1 c2 -> apart c2 c1.
Proof. intros Ha a. destruct (Ha a). auto. Qed.
Lemma writable_key c a : writable c a -> a ∈ keys c.
Proof. intros (m & Hm & <- & _). apply elem_of_list_In, in_map, elem_of_list_In, Hm. Qed.
Lemma writable_dec c a : writable c a \/ ~ writable c a.
Proof.
  destruct (decide (a ∈ map am_key (List.filter am_mut (cl_accounts c)))) as [Hi|Hi].
  - left. apply elem_of_list_In, in_map_iff in Hi as (m & E & Hm). apply filter_In in Hm as [Hm Hb].
    exists m. rewrite elem_of_list_In. auto.
  - right. intros (m & Hm & E & Hb). apply Hi. apply elem_of_list_In, in_map_iff. exists m. split; [exact E|].
    apply filter_In. rewrite <- elem_of_list_In. auto.
Qed.

(** A call that is apart from another is treated as if the other had not happened... *)
Theorem C99_no_interference w c1 c2 :
  apart c1 c2 -> same_outcome (keys c2) (entry (happens w (HCall c1)) c2) (entry w c2).
Proof.
  intros Ha. apply C99_depends_on_its_accounts; [auto|]. split; [apply now_at|]. intros a Hin.
  apply same_at_sym, kept_at. intros Hw. apply (proj1 (Ha a) Hw Hin).
Qed.

Lemma respects P w1 w2 c : (forall a, a ∈ keys c -> a ∈ P) -> agree P w1 w2 -> agree P (call_run w1 c) (call_run w2 c).
Proof.
  intros Hk Ha. pose proof (C99_depends_on_its_accounts c P w1 w2 Hk Ha) as Ho. cbn [happens].
  destruct (entry w1 c) as [[? ?]|], (entry w2 c) as [[? ?]|]; cbn in Ho; try contradiction; [apply Ho|exact Ha].
Qed.

(** ...so the two can be run in either order... *)
Theorem C99_either_order w c1 c2 :
  apart c1 c2 ->
  same_ledger (happens (happens w (HCall c1)) (HCall c2)) (happens (happens w (HCall c2)) (HCall c1)).
Proof.
  intros Ha. split; [rewrite !now_at; reflexivity|]. intros a.
  assert (Hone : forall c c', apart c c' -> writable c a ->
    same_at (call_run (call_run w c) c') (call_run (call_run w c') c) a).
  { intros c c' Hc Hw. apply (same_at_trans _ (call_run w c)).
    - apply same_at_sym, kept_at. intros Hw'. apply (proj2 (Hc a) Hw'), writable_key, Hw.
    - apply (respects (keys c)); [auto| |apply writable_key, Hw]. split; [symmetry; apply now_at|]. intros b Hb.
      apply kept_at. intros Hw'. apply (proj2 (Hc b) Hw'), Hb. }
  destruct (writable_dec c1 a) as [Hw|Hn1]; [apply Hone; assumption|].
  destruct (writable_dec c2 a) as [Hw|Hn2]; [apply same_at_sym, Hone; [apply apart_sym|]; assumption|].
  apply (same_at_trans _ w).
  - apply same_at_sym. eapply same_at_trans; apply kept_at; assumption.
  - eapply same_at_trans; apply kept_at; assumption.
Qed.

(** ...and any number of them in any order. *)
Lemma same_ledger_refl w : same_ledger w w.
Proof. split; [reflexivity|]. intros a. apply same_at_refl. Qed.
Lemma same_ledger_trans w1 w2 w3 : same_ledger w1 w2 -> same_ledger w2 w3 -> same_ledger w1 w3.
Proof. intros [E1 H1] [E2 H2]. split; [congruence|]. intros a. eapply same_at_trans; auto. Qed.
Lemma respects_all w1 w2 c : same_ledger w1 w2 -> same_ledger (call_run w1 c) (call_run w2 c).
Proof.
  intros [E Ha]. split; [rewrite !now_at; exact E|]. intros a.
  apply (respects (a :: keys c)); [intros; right; assumption| |left]. split; [exact E|auto].
Qed.
Lemma respects_list l : forall w1 w2, same_ledger w1 w2 ->
  same_ledger (fold_left happens (map HCall l) w1) (fold_left happens (map HCall l) w2).
Proof. induction l as [|c l IH]; intros w1 w2 Hs; [exact Hs|]. apply IH, respects_all, Hs. Qed.

Theorem C99_any_order l l' :
  Permutation l l' -> ForallOrdPairs apart l ->
  forall w, same_ledger (fold_left happens (map HCall l) w) (fold_left happens (map HCall l') w).
Proof.
  intros Hp Hl.
  enough (ForallOrdPairs apart l' /\ forall w, same_ledger (fold_left happens (map HCall l) w) (fold_left happens (map HCall l') w)) by tauto.
  induction Hp as [|c l l' Hp IH|c1 c2 l|l l' l'' Hp1 IH1 Hp2 IH2].
  - split; [constructor|]. intros w. apply same_ledger_refl.
  - inversion Hl as [|? ? Hf Hl']; subst. destruct (IH Hl') as [IHl IHw]. split.
    + constructor; [|exact IHl]. rewrite List.Forall_forall in *. intros c' Hc. apply Hf, Permutation_in with l'; [|exact Hc].
      apply Permutation_sym, Hp.
    + intros w. cbn [map fold_left]. apply IHw.
  - inversion Hl as [|? ? Hf Hl']; subst. inversion Hl' as [|? ? Hf' Hl'']; subst. inversion Hf as [|? ? Hc Hf2]; subst. split.
    + constructor; [constructor; [apply apart_sym, Hc|exact Hf']|constructor; assumption].
    + intros w. cbn [map fold_left]. apply respects_list, C99_either_order, Hc.
  - destruct (IH1 Hl) as [Hl1 Hw1]. destruct (IH2 Hl1) as [Hl2 Hw2]. split; [exact Hl2|].
    intros w. eapply same_ledger_trans; [apply Hw1|apply Hw2].
Qed.
End WithCrypto.

(** * Examples *)

#[local] Existing Instance toy.
#[local] Existing Instance ids.

(** Two presales of the same tokens; Alice deposits in one while Bob deposits in the other. *)
Definition base2 : addr := Wallet 4711.
Definition k2 : addr := PPresale base2 bmint qmint.
Definition two_open : list op := setup ++ [
  ff_init;
  IInitPresale base2 bmint qmint creator_b creator creator Token2022 SplToken fc_args noh;
  EClock 1100; IEscrowPermissionless k1 alice alice; IEscrowPermissionless k2 bob bob ].
Definition in_first : op := dep alice alice_q alice 0 300.
Definition in_second : op := IDeposit k2 (PQuoteVault k2) qmint (PEscrow k2 bob 0) bob_q bob SplToken 400 noh.
Definition call_for (o : op) : call := match call_of o with Some c => c | None => mkCall [] [] true end.

Definition apartb (c1 c2 : call) : bool :=
  forallb (fun m => negb (am_mut m) || negb (bool_decide (am_key m ∈ keys c2))) (cl_accounts c1)
  && forallb (fun m => negb (am_mut m) || negb (bool_decide (am_key m ∈ keys c1))) (cl_accounts c2).
Lemma apartb_apart c1 c2 : apartb c1 c2 = true -> apart c1 c2.
Proof.
  unfold apartb. rewrite andb_true_iff, !forallb_forall. intros [H1 H2] a.
  split; intros (m & Hm & <- & Hb) Hin; apply elem_of_list_In in Hm; [specialize (H1 m Hm)|specialize (H2 m Hm)];
    rewrite Hb, bool_decide_eq_true_2 in * by exact Hin; discriminate.
Qed.

Example C99_met :
  forallb id (accepted genesis two_open) = true /\ apart (call_for in_first) (call_for in_second) /\
  accepts (entry (run genesis two_open) (call_for in_first)) = true /\
  accepts (entry (run genesis two_open) (call_for in_second)) = true.
Proof.
  split; [vm_compute; reflexivity|]. split; [apply apartb_apart; vm_compute; reflexivity|].
  split; vm_compute; reflexivity.
Qed.
(** Two deposits in the same presale are not apart. *)
Example C99_not_apart : ~ apart (call_for in_first) (call_for (dep bob bob_q bob 0 100)).
Proof.
  intros Ha. apply (proj1 (Ha k1)).
  - exists (mkMeta k1 false true). split; [|auto]. apply elem_of_list_In. left. vm_compute. reflexivity.
  - left.
Qed.
