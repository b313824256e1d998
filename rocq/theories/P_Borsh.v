(** C73: instruction data.  Decoding accepts exactly the encodings of the arguments (followed by
    anything), so data determines the instruction and its arguments. *)
From Coq Require Import Lia String.
From Verif Require Import Base Math State Handlers Token World Instr Exec Spec Tactics Seeds Sha256 Layout Borsh
  Inv Reach P_Merkle P_Layout Scenario.
Ltac Zify.zify_post_hook ::= Z.to_euclidean_division_equations.

Record lawful {A} (c : codec A) : Prop := {
  law_dec : forall x r, valid c x = true -> dec c (enc c x ++ r) = Some (x, r);
  law_enc : forall b x r, forallb in_u8 b = true -> dec c b = Some (x, r) -> valid c x = true /\ b = enc c x ++ r;
  law_u8 : forall x, valid c x = true -> forallb in_u8 (enc c x) = true
}.
Definition nonempty {A} (c : codec A) : Prop := forall x, valid c x = true -> (1 <= List.length (enc c x))%nat.

Lemma u8_app a b : forallb in_u8 (a ++ b) = true <-> forallb in_u8 a = true /\ forallb in_u8 b = true.
Proof. rewrite forallb_app, andb_true_iff. reflexivity. Qed.

Lemma of_le_range b : forallb in_u8 b = true -> 0 <= of_le b < 256 ^ Z.of_nat (List.length b).
Proof.
  induction b as [|x b IH]; intros Hb; [cbn; lia|]. cbn [forallb] in Hb. apply andb_true_iff in Hb as [Hx Hb].
  specialize (IH Hb). cbn [of_le List.length]. rewrite Nat2Z.inj_succ, Z.pow_succ_r by lia.
  unfold in_u8, U8MAX in Hx. nia.
Qed.
Lemma le_bytes_of_le b : forallb in_u8 b = true -> le_bytes (List.length b) (of_le b) = b.
Proof.
  induction b as [|x b IH]; intros Hb; [reflexivity|]. cbn [forallb] in Hb. apply andb_true_iff in Hb as [Hx Hb].
  cbn [of_le List.length le_bytes]. unfold in_u8, U8MAX in Hx.
  replace ((x + 256 * of_le b) mod 256) with x by lia. replace ((x + 256 * of_le b) / 256) with (of_le b) by lia.
  rewrite IH by assumption. reflexivity.
Qed.

Lemma lawful_int n : lawful (c_int n).
Proof.
  split.
  - intros z r Hv. cbn in Hv |- *. rewrite app_length, le_bytes_length.
    destruct (Nat.leb_spec n (n + List.length r)); [|lia].
    rewrite take_app_alt, drop_app_alt by (rewrite le_bytes_length; reflexivity).
    rewrite of_le_bytes; [reflexivity|]. change 256 with (2 ^ 8). rewrite <- Z.pow_mul_r by lia. lia.
  - intros b z r Hb Hd. cbn in Hd |- *. destruct (Nat.leb_spec n (List.length b)) as [Hl|]; [|discriminate Hd].
    injection Hd as <- <-. assert (Ht : forallb in_u8 (take n b) = true).
    { rewrite <- (take_drop n b), u8_app in Hb. apply Hb. }
    assert (Hn : List.length (take n b) = n) by (rewrite take_length; lia).
    pose proof (of_le_range _ Ht) as Hr. rewrite Hn in Hr. change 256 with (2 ^ 8) in Hr.
    rewrite <- Z.pow_mul_r in Hr by lia. split.
    + apply andb_true_iff. split; [apply Z.leb_le|apply Z.ltb_lt]; lia.
    + rewrite <- Hn at 1. rewrite le_bytes_of_le by assumption. rewrite take_drop. reflexivity.
  - intros z _. apply le_bytes_u8.
Qed.
Lemma nonempty_int n : nonempty (c_int (S n)).
Proof. intros z _. cbn [enc c_int]. rewrite le_bytes_length. lia. Qed.

Lemma lawful_array n : lawful (c_array n).
Proof.
  split.
  - intros z r Hv. cbn in Hv |- *. apply andb_true_iff in Hv as [Hl _]. apply Nat.eqb_eq in Hl.
    unfold id. rewrite app_length, Hl. destruct (Nat.leb_spec n (n + List.length r)); [|lia].
    rewrite take_app_alt, drop_app_alt by (symmetry; exact Hl). reflexivity.
  - intros b z r Hb Hd. cbn in Hd |- *. destruct (Nat.leb_spec n (List.length b)) as [Hl|]; [|discriminate Hd].
    injection Hd as <- <-. assert (Ht : forallb in_u8 (take n b) = true).
    { rewrite <- (take_drop n b), u8_app in Hb. apply Hb. }
    unfold id. rewrite take_drop, Ht, take_length. split; [|reflexivity].
    rewrite andb_true_r. apply Nat.eqb_eq. lia.
  - intros z Hv. cbn in Hv |- *. apply andb_true_iff in Hv as [_ Hv]. exact Hv.
Qed.
Lemma nonempty_array n : nonempty (c_array (S n)).
Proof. intros z Hv. cbn in Hv |- *. apply andb_true_iff in Hv as [Hl _]. apply Nat.eqb_eq in Hl. unfold id. lia. Qed.

Lemma lawful_unit : lawful c_unit.
Proof.
  split.
  - intros [] r _. reflexivity.
  - intros b [] r _ Hd. cbn in Hd. injection Hd as <-. split; reflexivity.
  - reflexivity.
Qed.

Lemma lawful_pair {A B} (c : codec A) (d : codec B) : lawful c -> lawful d -> lawful (c_pair c d).
Proof.
  intros Hc Hd. split.
  - intros [x y] r Hv. cbn in Hv |- *. apply andb_true_iff in Hv as [Hx Hy].
    rewrite <- app_assoc, (law_dec _ Hc), (law_dec _ Hd) by assumption. reflexivity.
  - intros b [x y] r Hb H. cbn in H |- *. destruct (dec c b) as [[x1 b1]|] eqn:E1; [|discriminate H].
    destruct (dec d b1) as [[y1 b2]|] eqn:E2; [|discriminate H]. injection H as <- <- <-.
    apply (law_enc _ Hc) in E1 as [V1 ->]; [|assumption]. apply u8_app in Hb as [_ Hb].
    apply (law_enc _ Hd) in E2 as [V2 ->]; [|assumption]. rewrite V1, V2, <- app_assoc. split; reflexivity.
  - intros [x y] Hv. cbn in Hv |- *. apply andb_true_iff in Hv as [Hx Hy]. apply u8_app.
    split; [apply (law_u8 _ Hc)|apply (law_u8 _ Hd)]; assumption.
Qed.
Lemma nonempty_pair {A B} (c : codec A) (d : codec B) : nonempty c -> nonempty (c_pair c d).
Proof.
  intros Hc [x y] Hv. cbn in Hv |- *. apply andb_true_iff in Hv as [Hx _]. rewrite app_length.
  specialize (Hc _ Hx). lia.
Qed.

Lemma lawful_iso {A B} (f : A -> B) (g : B -> A) (c : codec A) :
  (forall x, f (g x) = x) -> (forall x, g (f x) = x) -> lawful c -> lawful (c_iso f g c).
Proof.
  intros Hfg Hgf Hc. split.
  - intros x r Hv. cbn in Hv |- *. rewrite (law_dec _ Hc) by assumption. rewrite Hfg. reflexivity.
  - intros b x r Hb H. cbn in H |- *. destruct (dec c b) as [[x1 b1]|] eqn:E1; [|discriminate H].
    injection H as <- <-. rewrite Hgf. eapply (law_enc _ Hc); eassumption.
  - intros x Hv. cbn in Hv |- *. apply (law_u8 _ Hc). exact Hv.
Qed.
Lemma nonempty_iso {A B} (f : A -> B) (g : B -> A) (c : codec A) : nonempty c -> nonempty (c_iso f g c).
Proof. intros Hc x Hv. apply Hc. exact Hv. Qed.

Lemma dec_list_enc {A} (c : codec A) l r : lawful c -> forallb (valid c) l = true ->
  dec_list c (List.length l) (concat (map (enc c) l) ++ r) = Some (l, r).
Proof.
  intros Hc. induction l as [|x l IH]; intros Hl; [reflexivity|]. cbn [forallb] in Hl.
  apply andb_true_iff in Hl as [Hx Hl]. cbn [List.length map concat dec_list].
  rewrite <- app_assoc, (law_dec _ Hc) by assumption. rewrite IH by assumption. reflexivity.
Qed.
Lemma dec_list_inv {A} (c : codec A) n : lawful c -> forall b l r, forallb in_u8 b = true ->
  dec_list c n b = Some (l, r) ->
  List.length l = n /\ forallb (valid c) l = true /\ b = concat (map (enc c) l) ++ r.
Proof.
  intros Hc. induction n as [|n IH]; intros b l r Hb H; cbn in H.
  - injection H as <- <-. repeat split; reflexivity.
  - destruct (dec c b) as [[x1 b1]|] eqn:E1; [|discriminate H].
    destruct (dec_list c n b1) as [[l1 b2]|] eqn:E2; [|discriminate H]. injection H as <- <-.
    apply (law_enc _ Hc) in E1 as [V1 ->]; [|assumption]. apply u8_app in Hb as [_ Hb].
    apply IH in E2 as (Hn & V2 & ->); [|assumption]. cbn. rewrite Hn, V1, V2, <- app_assoc. repeat split; reflexivity.
Qed.
Lemma concat_long {A} (c : codec A) l : nonempty c -> forallb (valid c) l = true ->
  (List.length l <= List.length (concat (map (enc c) l)))%nat.
Proof.
  intros Hc. induction l as [|x l IH]; intros Hl; [cbn; lia|]. cbn [forallb] in Hl.
  apply andb_true_iff in Hl as [Hx Hl]. cbn [map concat List.length]. rewrite app_length.
  specialize (Hc _ Hx). specialize (IH Hl). lia.
Qed.

Lemma lawful_vec {A} (c : codec A) : nonempty c -> lawful c -> lawful (c_vec c).
Proof.
  intros Hn Hc. split.
  - intros l r Hv. cbn [valid c_vec] in Hv. apply andb_true_iff in Hv as [Hl Hv]. cbn [enc dec c_vec].
    rewrite <- app_assoc. change (le_bytes 4) with (enc (c_int 4)).
    rewrite (law_dec _ (lawful_int 4)) by (cbn [valid c_int]; apply andb_true_iff; split; [apply Z.leb_le|exact Hl]; lia).
    pose proof (concat_long _ _ Hn Hv) as Hlong. rewrite app_length.
    destruct (Z.leb_spec (Z.of_nat (List.length l)) (Z.of_nat (List.length (concat (map (enc c) l)) + List.length r)%nat)); [|lia].
    rewrite Nat2Z.id. apply dec_list_enc; assumption.
  - intros b l r Hb H. cbn [dec c_vec] in H. destruct (dec (c_int 4) b) as [[n b1]|] eqn:E1; [|discriminate H].
    apply (law_enc _ (lawful_int 4)) in E1 as [V1 ->]; [|assumption]. apply u8_app in Hb as [_ Hb].
    destruct (n <=? _); [|discriminate H]. apply dec_list_inv in H as (Hl & Hv & ->); [|assumption..].
    cbn [valid c_int] in V1. apply andb_true_iff in V1 as [V1 V2]. apply Z.leb_le in V1.
    assert (Hln : Z.of_nat (List.length l) = n) by lia. cbn [valid enc c_vec]. rewrite Hln, Hv. split.
    + rewrite andb_true_r. exact V2.
    + rewrite <- app_assoc. reflexivity.
  - intros l Hv. cbn [valid c_vec] in Hv. apply andb_true_iff in Hv as [Hl Hv]. cbn [enc c_vec].
    apply u8_app. split; [apply le_bytes_u8|]. clear Hl. induction l as [|x l IH]; [reflexivity|].
    cbn [forallb] in Hv. apply andb_true_iff in Hv as [Hx Hv]. cbn [map concat]. apply u8_app.
    split; [apply (law_u8 _ Hc); assumption|apply IH; assumption].
Qed.

Lemma lawful_string : lawful c_string.
Proof.
  split.
  - intros x r Hv. cbn [valid c_string] in Hv. apply andb_true_iff in Hv as [Hv Hu]. apply andb_true_iff in Hv as [Hl Hv].
    cbn [enc dec c_string]. rewrite <- app_assoc. change (le_bytes 4) with (enc (c_int 4)).
    rewrite (law_dec _ (lawful_int 4)) by (cbn [valid c_int]; apply andb_true_iff; split; [apply Z.leb_le|exact Hl]; lia).
    rewrite app_length. destruct (Z.leb_spec (Z.of_nat (List.length x)) (Z.of_nat (List.length x + List.length r)%nat)); [|lia].
    rewrite Nat2Z.id, take_app_alt, drop_app_alt by reflexivity. rewrite Hu. reflexivity.
  - intros b x r Hb H. cbn [dec c_string] in H. destruct (dec (c_int 4) b) as [[n b1]|] eqn:E1; [|discriminate H].
    apply (law_enc _ (lawful_int 4)) in E1 as [V1 ->]; [|assumption]. apply u8_app in Hb as [_ Hb].
    destruct (Z.leb_spec n (Z.of_nat (List.length b1))) as [Hn|]; [|discriminate H].
    destruct (utf8 (take (Z.to_nat n) b1)) eqn:Hu; [|discriminate H]. injection H as <- <-.
    cbn [valid c_int] in V1. apply andb_true_iff in V1 as [V1 V2]. apply Z.leb_le in V1.
    assert (Hln : Z.of_nat (List.length (take (Z.to_nat n) b1)) = n) by (rewrite take_length; lia).
    cbn [valid enc c_string]. rewrite Hln, Hu. assert (Ht : forallb in_u8 (take (Z.to_nat n) b1) = true).
    { rewrite <- (take_drop (Z.to_nat n) b1), u8_app in Hb. apply Hb. }
    rewrite Ht. split.
    + rewrite !andb_true_r. exact V2.
    + rewrite <- app_assoc, take_drop. reflexivity.
  - intros x Hv. cbn [valid c_string] in Hv. apply andb_true_iff in Hv as [Hv Hu]. apply andb_true_iff in Hv as [Hl Hv].
    cbn [enc c_string]. apply u8_app. split; [apply le_bytes_u8|exact Hv].
Qed.

Lemma lawful_accounts_type : lawful c_accounts_type.
Proof.
  split.
  - intros [] r _; reflexivity.
  - intros b x r _ H. cbn [dec c_accounts_type] in H. destruct b as [|y b]; [discriminate H|].
    destruct (Z.eqb_spec y 0) as [->|]; [injection H as <- <-; split; reflexivity|].
    destruct (Z.eqb_spec y 1) as [->|]; [injection H as <- <-; split; reflexivity|discriminate H].
  - intros [] _; reflexivity.
Qed.
Lemma nonempty_accounts_type : nonempty c_accounts_type.
Proof. intros [] _; cbn; lia. Qed.

Lemma lawful_slices : lawful c_slices.
Proof.
  apply lawful_vec.
  - apply nonempty_iso, nonempty_pair, nonempty_accounts_type.
  - apply lawful_iso; [intros []; reflexivity|intros []; reflexivity|].
    apply lawful_pair; [apply lawful_accounts_type|apply lawful_int].
Qed.

Create HintDb lawful.
#[local] Hint Resolve lawful_int lawful_array lawful_unit lawful_pair lawful_string lawful_slices : lawful.

Lemma lawful_init_args : lawful c_init_args.
Proof.
  unfold c_init_args. apply lawful_pair; [|apply lawful_pair; [|apply lawful_pair; [apply lawful_array|apply lawful_vec]]].
  - apply lawful_iso.
    + intros [[] ?]; reflexivity.
    + intros (?&?&?&?&?&?&?&?&?); reflexivity.
    + unfold c_u64, c_u8. auto 20 with lawful.
  - apply lawful_iso.
    + intros []; reflexivity.
    + intros (?&?&?&?&?); reflexivity.
    + unfold c_u64, c_u16. auto 20 with lawful.
  - apply nonempty_iso, nonempty_pair, nonempty_int.
  - apply lawful_iso.
    + intros [[] ?]; reflexivity.
    + intros (?&?&?&?&?); reflexivity.
    + unfold c_u64, c_u16. auto 20 with lawful.
Qed.

Lemma lawful_codec n : lawful (codec_of n).
Proof.
  destruct n; cbn [codec_of payload]; unfold c_u64, c_u128, c_u8; auto 20 using lawful_init_args with lawful.
  all: apply lawful_pair; [apply lawful_vec; [apply nonempty_array|apply lawful_array]|auto with lawful].
Qed.

(** * Discriminators *)

(** The tags as bytes, so that each hash is computed once. *)
Definition ix_tag (n : iname) : bytes :=
  match n with
  | NInitFixedArgs => [224; 80; 127; 193; 204; 143; 243; 194]
  | NCloseFixedArgs => [125; 65; 70; 247; 99; 200; 42; 225]
  | NInitPresale => [9; 174; 12; 126; 150; 119; 68; 100]
  | NCreateMerkle => [55; 243; 253; 240; 78; 186; 232; 166]
  | NCloseMerkle => [157; 174; 38; 193; 204; 253; 3; 12]
  | NEscrowPermissionless => [241; 26; 9; 26; 248; 201; 151; 0]
  | NEscrowCreator => [131; 130; 26; 39; 200; 38; 18; 173]
  | NEscrowMerkle => [62; 200; 54; 145; 59; 239; 91; 5]
  | NCreateOperator => [145; 40; 238; 75; 181; 252; 59; 11]
  | NRevokeOperator => [185; 25; 87; 77; 88; 8; 30; 175]
  | NDeposit => [242; 35; 198; 137; 82; 225; 242; 182]
  | NWithdraw => [183; 18; 70; 156; 148; 109; 161; 34]
  | NClaim => [62; 198; 214; 193; 213; 159; 108; 210]
  | NWithdrawRemaining => [54; 253; 188; 34; 100; 145; 59; 127]
  | NUnsold => [101; 141; 8; 65; 176; 225; 47; 110]
  | NCloseEscrow => [139; 171; 94; 146; 191; 91; 144; 50]
  | NCreatorWithdraw => [92; 117; 206; 254; 174; 108; 37; 106]
  | NRefresh => [68; 237; 17; 237; 147; 201; 27; 169]
  | NCreateServer => [139; 13; 120; 145; 18; 209; 185; 180]
  | NCloseServer => [226; 2; 147; 220; 38; 247; 138; 95]
  | NCollectFee => [9; 215; 62; 151; 64; 163; 150; 7]
  end.
Theorem C73_tags n : ix_discriminator n = ix_tag n.
Proof. destruct n; vm_compute; reflexivity. Qed.

Lemma ix_discriminators_inj_b :
  forallb (fun n => forallb (fun m => negb (bool_decide (ix_tag n = ix_tag m)) ||
    String.eqb (iname_string n) (iname_string m)) all_names) all_names = true.
Proof. vm_compute. reflexivity. Qed.
Lemma all_names_all n : In n all_names.
Proof. destruct n; cbn; tauto. Qed.
Lemma iname_string_inj n m : iname_string n = iname_string m -> n = m.
Proof. destruct n, m; intros He; try reflexivity; discriminate He. Qed.
Theorem C73_discriminators n m : ix_discriminator n = ix_discriminator m -> n = m.
Proof.
  intros He. rewrite !C73_tags in He. pose proof ix_discriminators_inj_b as Hb. rewrite forallb_forall in Hb.
  specialize (Hb _ (all_names_all n)). rewrite forallb_forall in Hb. specialize (Hb _ (all_names_all m)).
  rewrite (bool_decide_eq_true_2 _ He) in Hb. cbn [negb orb] in Hb.
  apply String.eqb_eq in Hb. apply iname_string_inj. exact Hb.
Qed.
Theorem C73_discriminators_apart n : ix_discriminator n <> event_tag /\ ix_discriminator n <> idl_tag.
Proof. rewrite C73_tags. destruct n; split; vm_compute; discriminate. Qed.
Lemma ix_discriminator_length n : List.length (ix_discriminator n) = 8%nat.
Proof. rewrite C73_tags. destruct n; vm_compute; reflexivity. Qed.
Lemma ix_discriminator_u8 n : forallb in_u8 (ix_discriminator n) = true.
Proof. rewrite C73_tags. destruct n; vm_compute; reflexivity. Qed.

Lemma find_name data n : take 8 data = ix_discriminator n ->
  List.find (fun n => bool_decide (take 8 data = ix_discriminator n)) all_names = Some n.
Proof.
  intros Hd. destruct (List.find _ all_names) as [m|] eqn:Hf.
  - apply find_some in Hf as [_ Hm]. apply bool_decide_eq_true in Hm. f_equal. apply C73_discriminators. congruence.
  - exfalso. pose proof (find_none _ _ Hf _ (all_names_all n)) as Hn. cbv beta in Hn.
    apply bool_decide_eq_false in Hn. auto.
Qed.

(** * Instructions *)

(** What a client encodes is what the program decodes. *)
Theorem C73_round_trip x rest : ix_valid x = true -> decode_ix (encode_ix x ++ rest) = Some (x, rest).
Proof.
  intros Hv. unfold decode_ix, encode_ix. rewrite <- app_assoc.
  assert (Ht : take 8 (ix_discriminator (ix_name x) ++ enc (codec_of (ix_name x)) (ix_args x) ++ rest)
    = ix_discriminator (ix_name x)) by (rewrite take_app_alt; [reflexivity|symmetry; apply ix_discriminator_length]).
  rewrite (find_name _ _ Ht). rewrite drop_app_alt by (symmetry; apply ix_discriminator_length).
  rewrite (law_dec _ (lawful_codec _)) by exact Hv. destruct x. reflexivity.
Qed.

(** Whatever the program decodes is such an encoding, with all arguments in the range of their types. *)
Theorem C73_canonical data x rest : forallb in_u8 data = true -> decode_ix data = Some (x, rest) ->
  ix_valid x = true /\ data = encode_ix x ++ rest.
Proof.
  intros Hb Hd. unfold decode_ix in Hd.
  destruct (List.find _ all_names) as [n|] eqn:Hf; [|discriminate Hd].
  apply find_some in Hf as [_ Hn]. apply bool_decide_eq_true in Hn.
  destruct (dec (codec_of n) (drop 8 data)) as [[v r]|] eqn:Hv; [|discriminate Hd]. injection Hd as <- <-.
  rewrite <- (take_drop 8 data), u8_app in Hb. destruct Hb as [_ Hb].
  apply (law_enc _ (lawful_codec n)) in Hv as [Hv He]; [|exact Hb]. split; [exact Hv|].
  unfold encode_ix. cbn [ix_name ix_args]. rewrite <- app_assoc, <- He, <- Hn, take_drop. reflexivity.
Qed.

(** Different instructions never have the same data, not even as a prefix of it. *)
Theorem C73_unambiguous x y r1 r2 : ix_valid x = true -> ix_valid y = true ->
  encode_ix x ++ r1 = encode_ix y ++ r2 -> x = y /\ r1 = r2.
Proof.
  intros Hx Hy He. pose proof (C73_round_trip x r1 Hx) as E1. rewrite He, (C73_round_trip y r2 Hy) in E1.
  injection E1 as -> ->. split; reflexivity.
Qed.

Theorem C73_bytes x : ix_valid x = true -> forallb in_u8 (encode_ix x) = true.
Proof.
  intros Hv. unfold encode_ix. apply u8_app. split; [apply ix_discriminator_u8|apply (law_u8 _ (lawful_codec _)); exact Hv].
Qed.

(** Instructions with every kind of argument, to bytes and back; a cut, a wrong variant and ill formed
    UTF-8 are rejected. *)
Definition ex_init : ix := mkIx NInitPresale
  (((mkPreArgs 1000 100 1000 2000 2 1 0 1, zeros 30),
    (mkLocked 2500 10 100 2000 (zeros 24), (zeros 32, [(mkRegArgs 1 1000 5000 100, zeros 32)]))),
   [mkSlice TransferHookBase 3; mkSlice TransferHookQuote 0]).
Example C73_init_met : ix_valid ex_init = true /\ decode_ix (encode_ix ex_init) = Some (ex_init, []) /\
  List.length (encode_ix ex_init) = 226%nat /\
  decode_ix (take 225 (encode_ix ex_init)) = None /\
  decode_ix (take 224 (encode_ix ex_init) ++ [2; 0]) = None.
Proof. repeat split; vm_compute; reflexivity. Qed.
Example C73_url_met :
  let ok := mkIx NCreateServer [104; 0xc3; 0xa9; 0xe2; 0x82; 0xac; 0xf0; 0x9f; 0x99; 0x82] in
  ix_valid ok = true /\ decode_ix (encode_ix ok ++ [7; 7]) = Some (ok, [7; 7]) /\
  decode_ix (ix_discriminator NCreateServer ++ [2; 0; 0; 0; 0xc0; 0x80]) = None.
Proof. repeat split; vm_compute; reflexivity. Qed.
