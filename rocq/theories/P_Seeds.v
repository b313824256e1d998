(** C66: the seeds of the program never collide. *)
From Coq Require Import Lia Ascii String.
From Verif Require Import Base Math State Handlers Token World Instr Exec Seeds P_Merkle.

(** Integer seeds fit their width: a registry index is a [u8], a root version a [u64], and there are
    at most 2^255 wallets (every second 32 byte string, about, is a point of the curve). *)
Fixpoint in_width (a : addr) : Prop :=
  match a with
  | Wallet n => (n < 2 ^ 255)%N
  | PAuth => True
  | PPresale b x y => in_width b /\ in_width x /\ in_width y
  | PBaseVault k | PQuoteVault k | PFixedArgs k | PServer k => in_width k
  | PEscrow k o i => in_width k /\ in_width o /\ 0 <= i <= U8MAX
  | PMerkle k v => in_width k /\ 0 <= v <= U64MAX
  | POperator c o => in_width c /\ in_width o
  | Ata o m _ => in_width o /\ in_width m
  end.

(** Addresses and hashes have 32 bytes, different wallets different addresses, the two token programs
    different ids.  A wallet is a point of the curve, or an address derived by some other program
    (a multisig, for instance). *)
Record good_keys (kr : keyring) : Prop := {
  g_hash : forall x, List.length (kr_hash kr x) = 32%nat;
  g_wallet : forall n, List.length (kr_wallet kr n) = 32%nat;
  g_wallet_inj : forall n m, (n < 2 ^ 255)%N -> (m < 2 ^ 255)%N ->
    kr_wallet kr n = kr_wallet kr m -> n = m;
  g_program : List.length (kr_program kr) = 32%nat;
  g_ata : List.length (kr_ata kr) = 32%nat;
  g_token : forall p, List.length (kr_token kr p) = 32%nat;
  g_token_ne : kr_token kr SplToken <> kr_token kr Token2022;
  g_foreign : forall n, kr_curve kr (kr_wallet kr n) = true \/
    exists seeds bump pid, kr_foreign kr n = Some (preimage seeds bump pid) /\
      kr_wallet kr n = kr_hash kr (preimage seeds bump pid) /\
      List.length pid = 32%nat /\ pid <> kr_program kr /\ pid <> kr_ata kr
}.

Lemma try_bumps_Some kr seeds pid n x : try_bumps kr seeds pid n = Some x ->
  kr_curve kr x = false /\ exists b, 1 <= b <= Z.of_nat n /\ x = kr_hash kr (preimage seeds b pid).
Proof.
  revert x. induction n as [|n IH]; intros x; [discriminate|].
  cbn [try_bumps]. destruct (kr_curve kr _) eqn:Hc.
  - intros Hx. apply IH in Hx as (Hx & b & Hb & He). split; [assumption|]. exists b. split; [lia|assumption].
  - intros Hx. injection Hx as <-. split; [assumption|]. exists (Z.of_nat (S n)). split; [lia|reflexivity].
Qed.
Lemma find_Some kr seeds pid x : find_program_address kr seeds pid = Some x ->
  kr_curve kr x = false /\ exists b, 1 <= b <= 255 /\ x = kr_hash kr (preimage seeds b pid).
Proof. intros Hx. apply try_bumps_Some in Hx. exact Hx. Qed.

(** Which seeds and which program an address comes from. *)
Definition seeds_of (kr : keyring) (a : addr) : option (list bytes * bytes) :=
  match a with
  | Wallet _ => None
  | PPresale b x y =>
      match key kr b, key kr x, key kr y with
      | Some b, Some x, Some y => Some ([PRESALE_PREFIX; b; x; y], kr_program kr) | _, _, _ => None end
  | PBaseVault k => match key kr k with Some k => Some ([BASE_VAULT_PREFIX; k], kr_program kr) | None => None end
  | PQuoteVault k => match key kr k with Some k => Some ([QUOTE_VAULT_PREFIX; k], kr_program kr) | None => None end
  | PFixedArgs k =>
      match key kr k with Some k => Some ([FIXED_PRICE_PRESALE_PARAM_PREFIX; k], kr_program kr) | None => None end
  | PEscrow k o i =>
      match key kr k, key kr o with
      | Some k, Some o => Some ([ESCROW_PREFIX; k; o; le_bytes 1 i], kr_program kr) | _, _ => None end
  | PMerkle k v =>
      match key kr k with
      | Some k => Some ([MERKLE_ROOT_CONFIG_PREFIX; k; le_bytes 8 v], kr_program kr) | None => None end
  | POperator c o =>
      match key kr c, key kr o with
      | Some c, Some o => Some ([OPERATOR_PREFIX; c; o], kr_program kr) | _, _ => None end
  | PServer k =>
      match key kr k with
      | Some k => Some ([PERMISSIONED_SERVER_METADATA_PREFIX; k], kr_program kr) | None => None end
  | PAuth => Some ([PRESALE_AUTHORITY_PREFIX], kr_program kr)
  | Ata o m p =>
      match key kr o, key kr m with
      | Some o, Some m => Some ([o; kr_token kr p; m], kr_ata kr) | _, _ => None end
  end.

(** The addresses among the seeds. *)
Definition parts (a : addr) : list addr :=
  match a with
  | Wallet _ | PAuth => []
  | PPresale b x y => [b; x; y]
  | PBaseVault k | PQuoteVault k | PFixedArgs k | PServer k | PMerkle k _ => [k]
  | PEscrow k o _ => [k; o]
  | POperator c o => [c; o]
  | Ata o m _ => [o; m]
  end.

(** The finitely many byte strings that are hashed while [a] is derived, for each possible bump. *)
Inductive hashed (kr : keyring) : addr -> bytes -> Prop :=
  | h_own a s pid b : seeds_of kr a = Some (s, pid) -> 1 <= b <= 255 -> hashed kr a (preimage s b pid)
  | h_part a c x : c ∈ parts a -> hashed kr c x -> hashed kr a x
  | h_foreign n x : kr_foreign kr n = Some x -> hashed kr (Wallet n) x.

(** The derivations of [a] and [b] exhibit two different strings with the same hash. *)
Definition collision (kr : keyring) (a b : addr) : Prop :=
  exists x y, hashed kr a x /\ hashed kr b y /\ x <> y /\ kr_hash kr x = kr_hash kr y.

Lemma collision_part kr a b c d : c ∈ parts a -> d ∈ parts b -> collision kr c d -> collision kr a b.
Proof.
  intros Hc Hd (x & y & Hx & Hy & H). exists x, y. split; [eapply h_part; eassumption|].
  split; [eapply h_part; eassumption|assumption].
Qed.

Lemma key_seeds kr a x : key kr a = Some x ->
  (exists n, a = Wallet n /\ x = kr_wallet kr n) \/
  (exists s pid b, seeds_of kr a = Some (s, pid) /\ 1 <= b <= 255 /\ x = kr_hash kr (preimage s b pid) /\ kr_curve kr x = false).
Proof.
  intros Hx. destruct a; cbn [key seeds_of] in *.
  1: { left. injection Hx as <-. eauto. }
  all: right; repeat match type of Hx with context [match key _ ?y with _ => _ end] => destruct (key _ y) eqn:? end;
    try discriminate Hx; apply find_Some in Hx as (Hc & bm & Hbm & ->); eexists _, _, bm; split; [reflexivity|auto].
Qed.

Lemma key_length kr a x : good_keys kr -> key kr a = Some x -> List.length x = 32%nat.
Proof.
  intros Hg Hx. apply key_seeds in Hx as [(n & _ & ->)|(s & pid & b & _ & _ & -> & _)]; [apply Hg|apply Hg].
Qed.

(** Two preimages of the same program can only agree when the concatenated seeds do. *)
Lemma preimage_inj s b pid s' b' pid' :
  List.length pid = 32%nat -> List.length pid' = 32%nat ->
  preimage s b pid = preimage s' b' pid' -> concat s = concat s' /\ b = b' /\ pid = pid'.
Proof.
  intros Hl Hl' He. unfold preimage in He.
  rewrite !app_assoc in He. apply app_inv_tail in He.
  apply app_inj_2 in He as [He Hp]; [|congruence]. apply app_inj_2 in He as [He Hb]; [|reflexivity].
  injection Hb as Hb. auto.
Qed.

Lemma pid_length kr a s pid : good_keys kr -> seeds_of kr a = Some (s, pid) ->
  List.length pid = 32%nat /\ (pid = kr_program kr \/ pid = kr_ata kr).
Proof.
  intros Hg Hs. destruct a; cbn [seeds_of] in Hs; try discriminate Hs;
    repeat match type of Hs with context [match key _ ?y with _ => _ end] => destruct (key _ y) end;
    try discriminate Hs; injection Hs as <- <-; (split; [apply Hg|auto]).
Qed.

Lemma token_inj kr p q : good_keys kr -> kr_token kr p = kr_token kr q -> p = q.
Proof. intros Hg Hp. pose proof (g_token_ne _ Hg). destruct p, q; congruence. Qed.

(** Two addresses with the same bytes are wallets, or come from seeds with the same
    concatenation, unless their derivations collide. *)
Lemma same_bytes kr a b x : good_keys kr -> key kr a = Some x -> key kr b = Some x ->
  collision kr a b \/ (exists n m, a = Wallet n /\ b = Wallet m /\ kr_wallet kr n = kr_wallet kr m) \/
  (exists s s' pid, seeds_of kr a = Some (s, pid) /\ seeds_of kr b = Some (s', pid) /\ concat s = concat s').
Proof.
  intros Hg Hx Hy.
  assert (Hmix : forall n c s pid b, x = kr_wallet kr n -> seeds_of kr c = Some (s, pid) -> 1 <= b <= 255 ->
    x = kr_hash kr (preimage s b pid) -> kr_curve kr x = false ->
    exists y z, hashed kr (Wallet n) y /\ hashed kr c z /\ y <> z /\ kr_hash kr y = kr_hash kr z).
  { intros n c s pid b0 Hn Hs Hb Hh Hc. destruct (pid_length _ _ _ _ Hg Hs) as (Hl & Hp).
    destruct (g_foreign _ Hg n) as [Hon|(s' & b' & pid' & Hf & Hw & Hl' & N1 & N2)].
    - rewrite Hn in Hc. congruence.
    - exists (preimage s' b' pid'), (preimage s b0 pid). split; [apply h_foreign; assumption|].
      split; [apply h_own; assumption|]. split; [|congruence].
      intros He. apply preimage_inj in He as (_ & _ & He); [|assumption..]. destruct Hp; congruence. }
  apply key_seeds in Hx as [(n & -> & Hn)|(s & pid & b0 & Hs & Hb & Hh & Hc)];
    apply key_seeds in Hy as [(n' & -> & Hn')|(s' & pid' & b0' & Hs' & Hb' & Hh' & Hc')].
  - right. left. exists n, n'. split; [reflexivity|]. split; [reflexivity|congruence].
  - left. eapply Hmix; eassumption.
  - left. destruct (Hmix _ _ _ _ _ Hn' Hs Hb Hh Hc) as (y & z & H1 & H2 & H3 & H4).
    exists z, y. split; [assumption|]. split; [assumption|]. split; [auto|congruence].
  - destruct (decide (preimage s b0 pid = preimage s' b0' pid')) as [He|Hne].
    + right. right. destruct (pid_length _ _ _ _ Hg Hs) as [L _]. destruct (pid_length _ _ _ _ Hg Hs') as [L' _].
      apply preimage_inj in He as (He & _ & <-); [|assumption..]. exists s, s', pid. auto.
    + left. exists (preimage s b0 pid), (preimage s' b0' pid'). split; [apply h_own; assumption|].
      split; [apply h_own; assumption|]. split; [assumption|congruence].
Qed.

(** The number of seed bytes determines the kind of account. *)
Definition seed_bytes (a : addr) : nat :=
  match a with
  | Wallet _ => 0 | PAuth => 17 | PBaseVault _ => 42 | PQuoteVault _ => 43 | PServer _ => 47 | PFixedArgs _ => 49
  | PMerkle _ _ => 51 | PEscrow _ _ _ => 71 | POperator _ _ => 72 | Ata _ _ _ => 96 | PPresale _ _ _ => 103
  end.

Ltac open_seeds Hs := cbn [seeds_of] in Hs;
  repeat match type of Hs with context [match key _ ?y with _ => _ end] => destruct (key _ y) eqn:? end;
  try discriminate Hs; injection Hs; clear Hs; intros; subst.

Lemma seeds_length kr a s pid : good_keys kr -> seeds_of kr a = Some (s, pid) ->
  List.length (concat s) = seed_bytes a.
Proof.
  intros Hg Hs. destruct a; open_seeds Hs; cbn [concat seed_bytes]; rewrite ?app_length, ?le_bytes_length, ?(g_token _ Hg);
    repeat match goal with X : key _ _ = Some ?x |- context [List.length ?x] => rewrite (key_length _ _ _ Hg X) end; reflexivity.
Qed.

Ltac split_seeds Hg He := cbn [concat] in He; rewrite ?app_nil_r in He;
  repeat (apply app_inj_1 in He; [destruct He as [? He]
    |repeat match goal with X : key _ _ = Some ?x |- context [List.length ?x] => rewrite (key_length _ _ _ Hg X) end;
     rewrite ?(g_token _ Hg); reflexivity]).

Ltac use IH := match type of IH with forall b x, _ -> _ -> Some ?y = Some x -> _ =>
  match goal with K : key _ ?b = Some y, _ : key _ ?a = Some y |- _ =>
    let Hc := fresh in let E := fresh in
    destruct (IH b y ltac:(assumption) ltac:(assumption) eq_refl K) as [E|Hc]; [rewrite E in *
      |right; eapply collision_part; [| |exact Hc]; cbn [parts]; set_solver] end end.

Theorem C66_addresses_distinct kr : good_keys kr -> forall a b x,
  in_width a -> in_width b -> key kr a = Some x -> key kr b = Some x -> a = b \/ collision kr a b.
Proof.
  intros Hg a. induction a as [n|a1 IH1 a2 IH2 a3 IH3|a1 IH1|a1 IH1|a1 IH1|a1 IH1 a2 IH2 i|a1 IH1 v|a1 IH1 a2 IH2|a1 IH1| |a1 IH1 a2 IH2 pr];
    intros b x Ha Hb Hx Hy;
    destruct (same_bytes _ _ _ _ Hg Hx Hy) as [Hc|[(n1 & n2 & Em & -> & Hnm)|(s & s' & pid & Hs & Hs' & He)]];
    try (right; exact Hc); try discriminate Em; try discriminate Hs.
  1: { injection Em as <-. left. f_equal. apply (g_wallet_inj _ Hg); assumption. }
  all: pose proof (seeds_length _ _ _ _ Hg Hs) as L; pose proof (seeds_length _ _ _ _ Hg Hs') as L'; rewrite <- He, L in L';
    destruct b; try discriminate L'; clear L L' Hx Hy; open_seeds Hs; open_seeds Hs'; split_seeds Hg He; cbn [in_width] in Ha, Hb; subst.
  - destruct Ha as (A1 & A2 & A3), Hb as (B1 & B2 & B3). use IH1. use IH2. use IH3. left. reflexivity.
  - use IH1. left. reflexivity.
  - use IH1. left. reflexivity.
  - use IH1. left. reflexivity.
  - destruct Ha as (A1 & A2 & A3), Hb as (B1 & B2 & B3). use IH1. use IH2. left. f_equal.
    unfold U8MAX in *. eapply (le_bytes_inj 1); [| |exact He]; cbn; lia.
  - destruct Ha as (A1 & A2), Hb as (B1 & B2). use IH1. left. f_equal.
    unfold U64MAX in *. eapply (le_bytes_inj 8); [| |exact He]; cbn; lia.
  - destruct Ha as (A1 & A2), Hb as (B1 & B2). use IH1. use IH2. left. reflexivity.
  - use IH1. left. reflexivity.
  - left. reflexivity.
  - destruct Ha as (A1 & A2), Hb as (B1 & B2). use IH1. use IH2. left. f_equal. eapply token_inj; eassumption.
Qed.

(** In particular no other account can take the place of a vault or of the vault authority, and no
    wallet can sign for one. *)
Theorem C66_no_key_for_a_pda kr n a x : good_keys kr -> in_width a -> (n < 2 ^ 255)%N ->
  is_wallet a = false -> key kr a = Some x -> kr_wallet kr n <> x \/ collision kr (Wallet n) a.
Proof.
  intros Hg Ha Hn Hw Hx. destruct (decide (kr_wallet kr n = x)) as [He|Hne]; [|left; assumption]. right.
  destruct (C66_addresses_distinct kr Hg (Wallet n) a x Hn Ha ltac:(cbn; congruence) Hx) as [<-|Hc]; [discriminate Hw|assumption].
Qed.

(** * Example: a keyring that meets the hypotheses.  Wallets are even, hashes odd. *)
Definition toy_ring : keyring := mkKeyring
  (fun x => 1 :: le_bytes 31 (fold_left (fun acc y => (acc * 257 + y + 1) mod 2 ^ 248) x 7))
  (fun x => match x with y :: _ => Z.even y | [] => false end)
  (fun n => le_bytes 32 (2 * Z.of_N n)) (fun _ => None)
  (le_bytes 32 5) (le_bytes 32 7) (fun p => match p with SplToken => le_bytes 32 9 | Token2022 => le_bytes 32 11 end).

Lemma toy_ring_good : good_keys toy_ring.
Proof.
  constructor.
  - intros x. cbn [kr_hash toy_ring List.length]. rewrite le_bytes_length. reflexivity.
  - intros n. apply le_bytes_length.
  - intros n m Hn Hm He. cbn [kr_wallet toy_ring] in He. apply (le_bytes_inj 32) in He; [lia|..].
    + change (256 ^ Z.of_nat 32) with (2 * 2 ^ 255). change (2 ^ 255)%N with (Z.to_N (2 ^ 255)) in Hn. lia.
    + change (256 ^ Z.of_nat 32) with (2 * 2 ^ 255). change (2 ^ 255)%N with (Z.to_N (2 ^ 255)) in Hm. lia.
  - reflexivity.
  - reflexivity.
  - intros []; reflexivity.
  - discriminate.
  - intros n. left. cbn [kr_curve kr_wallet toy_ring le_bytes].
    rewrite (Z.mul_comm 2), Z.even_spec. exists ((Z.of_N n * 2 mod 256) / 2).
    pose proof (Z.div_mod (Z.of_N n * 2) 256 ltac:(lia)). pose proof (Z.mod_pos_bound (Z.of_N n * 2) 256 ltac:(lia)).
    assert ((Z.of_N n * 2) mod 256 = 2 * (Z.of_N n mod 128)) as ->.
    { rewrite (Z.mul_comm _ 2). change 256 with (2 * 128). apply Z.mul_mod_distr_l; lia. }
    rewrite (Z.mul_comm 2 (_ mod _)), Z.div_mul by lia. lia.
Qed.

Example C66_example :
  let k := PPresale (Wallet 10) (Wallet 20) (Wallet 21) in
  in_width (PEscrow k (Wallet 2) 3) /\ in_width (Ata (PMerkle k 7) k Token2022) /\
  match key toy_ring (PEscrow k (Wallet 2) 3), key toy_ring (PQuoteVault k) with
  | Some x, Some y => bool_decide (x = y) = false
  | _, _ => False
  end.
Proof. cbn [in_width]. unfold U8MAX, U64MAX. vm_compute. intuition congruence. Qed.
