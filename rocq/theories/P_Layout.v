(** C71, C72: accounts as byte strings lose nothing, and the discriminators keep account types apart. *)
From Coq Require Import Lia String.
From Verif Require Import Base Math State Handlers Token World Instr Exec Spec Tactics Seeds Sha256 Layout
  Inv Reach P_Merkle P_Width Scenario.

(** * SHA-256 yields 32 bytes *)

Lemma concat_const {A} n (l : list (list A)) : (forall x, x ∈ l -> List.length x = n) -> List.length (concat l) = (List.length l * n)%nat.
Proof.
  induction l as [|x l IH]; intros Hl; [reflexivity|]. cbn. rewrite app_length, IH.
  - rewrite (Hl x); [lia|]. left.
  - intros y Hy. apply Hl. right. assumption.
Qed.
Lemma be_bytes_length n z : List.length (be_bytes n z) = n.
Proof. unfold be_bytes. rewrite rev_length. apply le_bytes_length. Qed.
Lemma forallb_rev {A} (f : A -> bool) l : forallb f (rev l) = forallb f l.
Proof.
  induction l as [|x l IH]; [reflexivity|]. cbn. rewrite forallb_app, IH. cbn. rewrite andb_true_r. apply andb_comm.
Qed.
Lemma forallb_concat {A} (f : A -> bool) (l : list (list A)) :
  (forall x, x ∈ l -> forallb f x = true) -> forallb f (concat l) = true.
Proof.
  induction l as [|x l IH]; intros Hl; [reflexivity|]. cbn. rewrite forallb_app, IH, Hl; [reflexivity|left|].
  intros y Hy. apply Hl. right. assumption.
Qed.
Lemma round256_length s kw : List.length s = 8%nat -> List.length (round256 s kw) = 8%nat.
Proof. intros Hs. do 9 (destruct s as [|? s]; try discriminate Hs). reflexivity. Qed.
Lemma rounds_length l : forall s, List.length s = 8%nat -> List.length (foldl round256 s l) = 8%nat.
Proof. induction l as [|x l IH]; intros s Hs; [exact Hs|]. cbn. apply IH, round256_length, Hs. Qed.
Lemma compress_length hs b : List.length hs = 8%nat -> List.length (compress hs b) = 8%nat.
Proof.
  intros Hh. unfold compress. rewrite zip_with_length, rounds_length by assumption. rewrite Hh. reflexivity.
Qed.
Lemma blocks_length l : forall hs, List.length hs = 8%nat -> List.length (foldl compress hs l) = 8%nat.
Proof. induction l as [|x l IH]; intros hs Hs; [exact Hs|]. cbn [foldl]. apply IH, compress_length, Hs. Qed.
Theorem sha256_is_hash m : is_hash (sha256 m) = true.
Proof.
  unfold is_hash, sha256. set (hs := foldl compress H256 _).
  assert (Hl : List.length hs = 8%nat) by (apply blocks_length; reflexivity). clearbody hs.
  rewrite (concat_const 4).
  - rewrite map_length, Hl. apply andb_true_iff. split; [reflexivity|].
    apply forallb_concat. intros x Hx. apply elem_of_list_In, in_map_iff in Hx as (z & <- & _).
    unfold be_bytes. rewrite forallb_rev. apply le_bytes_u8.
  - intros x Hx. apply elem_of_list_In, in_map_iff in Hx as (z & <- & _). apply be_bytes_length.
Qed.
Lemma sha256_length m : List.length (sha256 m) = 32%nat.
Proof. apply is_hash_length, sha256_is_hash. Qed.

(** * Integers *)

Lemma of_le_bytes n : forall z, 0 <= z < 256 ^ Z.of_nat n -> of_le (le_bytes n z) = z.
Proof.
  induction n as [|n IH]; intros z Hz; cbn [le_bytes of_le].
  - cbn in Hz. lia.
  - rewrite Nat2Z.inj_succ, Z.pow_succ_r in Hz by lia.
    rewrite IH by (split; [apply Z.div_pos; lia|apply Z.div_lt_upper_bound; lia]).
    pose proof (Z.div_mod z 256 ltac:(lia)). lia.
Qed.
Lemma of_le_u8 z : fits U8MAX z -> of_le (le_bytes 1 z) = z.
Proof. intros Hz. apply of_le_bytes. unfold fits, U8MAX in Hz. cbn. lia. Qed.
Lemma of_le_u16 z : fits U16MAX z -> of_le (le_bytes 2 z) = z.
Proof. intros Hz. apply of_le_bytes. unfold fits, U16MAX in Hz. cbn. lia. Qed.
Lemma of_le_u64 z : fits U64MAX z -> of_le (le_bytes 8 z) = z.
Proof. intros Hz. apply of_le_bytes. unfold fits, U64MAX in Hz. cbn. lia. Qed.
Lemma of_le_u128 z : fits U128MAX z -> of_le (le_bytes 16 z) = z.
Proof. intros Hz. apply of_le_bytes. unfold fits, U128MAX in Hz. cbn. lia. Qed.

(** * Structs without padding between the fields *)

Fixpoint tight (off : Z) (l : list field) : bool :=
  match l with [] => true | (s, a) :: l => (0 <=? s) && (round_up off a =? off) && tight (off + s) l end.

Lemma parts_at l : forall off pre ps rest,
  tight off l = true -> Z.of_nat (List.length pre) = off -> map (fun p => Z.of_nat (List.length p)) ps = map fst l ->
  map (fun x => slice (pre ++ concat ps ++ rest) x.1 x.2) (place off l).1 = ps.
Proof.
  induction l as [|[s a] l IH]; intros off pre ps rest Ht Hp Hl.
  - destruct ps; [reflexivity|discriminate].
  - destruct ps as [|x ps]; [discriminate|]. cbn [map fst] in Hl. injection Hl as Hx Hl.
    cbn [tight] in Ht. apply andb_true_iff in Ht as [Ht0 Ht]. apply andb_true_iff in Ht0 as [Hs Hr].
    apply Z.eqb_eq in Hr. apply Z.leb_le in Hs. cbn [place]. rewrite Hr.
    specialize (IH (off + s) (pre ++ x) ps rest Ht).
    destruct (place (off + s) l) as [fs e] eqn:Hpl. cbn [fst map snd] in *.
    f_equal.
    + unfold slice. cbn [concat]. rewrite <- app_assoc, drop_app_alt by lia.
      apply take_app_alt. lia.
    + cbn [concat]. rewrite <- !app_assoc in *. apply IH; [rewrite app_length; lia|assumption].
Qed.
Lemma parts_concat l ps : tight 0 l = true -> map (fun p => Z.of_nat (List.length p)) ps = map fst l ->
  parts l (concat ps) = ps.
Proof.
  intros Ht Hl. unfold parts. pose proof (parts_at l 0 [] ps [] Ht eq_refl Hl) as Hp.
  rewrite app_nil_r in Hp. exact Hp.
Qed.

(** * Layout facts *)

Definition structs : list (list field) :=
  [registry_fields; presale_fields; escrow_fields; merkle_fields; operator_fields; fixed_fields;
   fixed_handler_fields; fcfs_handler_fields].
(** u128 has alignment 16 on the machine that runs the tests and 8 on the one that runs the program. *)
Definition align8 (l : list field) : list field := map (fun f => (f.1, Z.min 8 f.2)) l.

(** The fields follow each other without gaps, and the size is that of the fields, under both
    alignments.  [#[account(zero_copy)]] requires the absence of padding ([Pod]); the sizes are the
    constants asserted in the source (escrow.rs:32, presale.rs:159, presale_registry.rs:28,
    merkle_root_config.rs:19, operator.rs:11, fixed_price_presale_params.rs:14). *)
Theorem C71_no_gaps l : l ∈ structs ->
  tight 0 l = true /\ tight 0 (align8 l) = true /\
  size_of l = foldr (fun f s => f.1 + s) 0 l /\ size_of (align8 l) = size_of l.
Proof.
  intros Hl. unfold structs in Hl.
  repeat (apply elem_of_cons in Hl as [->|Hl]; [vm_compute; auto|]). apply elem_of_nil in Hl. contradiction.
Qed.
Theorem C71_sizes : map size_of structs = [160; 1264; 192; 144; 128; 160; 48; 48].
Proof. vm_compute. reflexivity. Qed.

(** * Discriminators *)

Lemma discriminator_length k : List.length (discriminator k) = 8%nat.
Proof. unfold discriminator, account_discriminator. rewrite take_length, sha256_length. reflexivity. Qed.

Lemma body_of k b : body k (discriminator k ++ b) = Some b.
Proof.
  unfold body. rewrite take_app_alt, drop_app_alt by (symmetry; apply discriminator_length).
  rewrite bool_decide_eq_true_2 by reflexivity. reflexivity.
Qed.

(** The tags as bytes, so that each hash is computed once. *)
Definition kind_tag (k : kind) : bytes :=
  match k with
  | KPresale => [38; 215; 222; 14; 115; 220; 52; 168]
  | KEscrow => [31; 213; 123; 187; 186; 22; 218; 155]
  | KMerkleRoot => [103; 2; 222; 217; 73; 50; 187; 39]
  | KOperator => [219; 31; 188; 145; 69; 139; 204; 117]
  | KFixedArgs => [75; 139; 198; 148; 132; 54; 191; 83]
  | KServer => [130; 242; 96; 20; 147; 138; 75; 246]
  end.
Theorem C72_tags k : discriminator k = kind_tag k.
Proof. destruct k; vm_compute; reflexivity. Qed.

Definition kinds : list kind := [KPresale; KEscrow; KMerkleRoot; KOperator; KFixedArgs; KServer].
Lemma kinds_all k : k ∈ kinds.
Proof. destruct k; unfold kinds; set_solver. Qed.

(** The eight bytes in front tell the account types apart, and none is that of a new account. *)
Theorem C72_discriminators k1 k2 : discriminator k1 = discriminator k2 -> k1 = k2.
Proof.
  assert (Hall : forallb (fun k1 => forallb (fun k2 =>
    implb (bool_decide (kind_tag k1 = kind_tag k2))
      (match k1, k2 with
       | KPresale, KPresale | KEscrow, KEscrow | KMerkleRoot, KMerkleRoot | KOperator, KOperator
       | KFixedArgs, KFixedArgs | KServer, KServer => true | _, _ => false end)) kinds) kinds = true)
    by (vm_compute; reflexivity).
  rewrite !C72_tags. intros He. rewrite forallb_forall in Hall. specialize (Hall k1 (proj1 (elem_of_list_In _ _) (kinds_all k1))).
  rewrite forallb_forall in Hall. specialize (Hall k2 (proj1 (elem_of_list_In _ _) (kinds_all k2))).
  rewrite He, bool_decide_eq_true_2 in Hall by reflexivity. destruct k1, k2; reflexivity || discriminate Hall.
Qed.
Theorem C72_not_blank k : discriminator k <> zeros 8.
Proof. rewrite C72_tags. destruct k; vm_compute; discriminate. Qed.

(** No data is accepted as two types of account. *)
Theorem C72_one_type k1 k2 b x1 x2 : body k1 b = Some x1 -> body k2 b = Some x2 -> k1 = k2 /\ x1 = x2.
Proof.
  unfold body. destruct (bool_decide_reflect (take 8 b = discriminator k1)) as [E1|]; [|discriminate].
  destruct (bool_decide_reflect (take 8 b = discriminator k2)) as [E2|]; [|discriminate].
  intros [= <-] [= <-]. split; [|reflexivity]. apply C72_discriminators. congruence.
Qed.

(** * Round trips *)

Ltac split_fits := repeat match goal with
  | X : Forall _ (_ :: _) |- _ => apply List.Forall_cons_iff in X as [? X]
  | X : Forall _ [] |- _ => clear X end.
Ltac read_ints := rewrite ?of_le_u8, ?of_le_u16, ?of_le_u64, ?of_le_u128 by assumption.
Ltac lengths := cbn [map List.length]; rewrite ?le_bytes_length; unfold zeros; rewrite ?repeat_length; try reflexivity.

Lemma zeros_length n : List.length (zeros n) = n.
Proof. apply repeat_length. Qed.

Lemma registry_bytes_length r : List.length (registry_bytes r) = 160%nat.
Proof.
  unfold registry_bytes, registry_parts. cbn [concat]. rewrite !app_length, !le_bytes_length, !zeros_length. reflexivity.
Qed.
Lemma registry_round r : reg_fits r -> registry_read (registry_bytes r) = r.
Proof.
  intros [F1 F2]. split_fits. unfold registry_read, registry_bytes. rewrite parts_concat.
  - unfold registry_parts. read_ints. destruct r; reflexivity.
  - reflexivity.
  - unfold registry_parts. cbn [map]. rewrite !le_bytes_length, !zeros_length. reflexivity.
Qed.

Lemma flag_round p : flag_prog (of_le (le_bytes 1 (prog_flag p))) = p.
Proof. destruct p; reflexivity. Qed.

Lemma raw_length p : List.length (raw_bytes p) = 48%nat.
Proof. unfold raw_bytes. rewrite !app_length, !le_bytes_length. reflexivity. Qed.
Lemma raw_slices p :
  slice (raw_bytes p) 0 16 = le_bytes 16 (p_raw0 p) /\ slice (raw_bytes p) 16 16 = le_bytes 16 (p_raw1 p) /\
  slice (raw_bytes p) 32 16 = le_bytes 16 (p_raw2 p).
Proof.
  repeat split; reflexivity.
Qed.

Lemma regs_slices (l : list registry) : List.length l = 5%nat ->
  map (fun i => slice (concat (map registry_bytes l)) (i * size_of registry_fields) (size_of registry_fields))
    [0; 1; 2; 3; 4] = map registry_bytes l.
Proof.
  intros Hl. set (f := (160, 16) : field).
  pose proof (parts_concat [f; f; f; f; f] (map registry_bytes l) eq_refl) as Hp.
  change (size_of registry_fields) with 160. unfold parts in Hp.
  change (place 0 [f; f; f; f; f]).1 with [(0, 160); (160, 160); (320, 160); (480, 160); (640, 160)] in Hp.
  cbn [map fst snd] in Hp. cbn [map]. apply Hp.
  do 6 (destruct l as [|? l]; try discriminate Hl). cbn [map]. rewrite !registry_bytes_length. reflexivity.
Qed.

Lemma regs_length (l : list registry) : List.length l = 5%nat -> List.length (concat (map registry_bytes l)) = 800%nat.
Proof.
  intros Hl. rewrite (concat_const 160).
  - rewrite map_length, Hl. reflexivity.
  - intros x Hx. apply elem_of_list_In, in_map_iff in Hx as (r & <- & _). apply registry_bytes_length.
Qed.

(** The keys stored in an account. *)
Definition presale_keys (p : presale) : list addr := [p_owner p; p_qmint p; p_bmint p; p_bvault p; p_qvault p; p_base p].
Definition escrow_keys (e : escrow) : list addr := [e_presale e; e_owner e].
Definition merkle_keys (c : merkle_cfg) : list addr := [k_presale c].
Definition operator_keys (o : operator) : list addr := [o_owner o; o_creator o].
Definition fixed_keys (x : fixed_args) : list addr := [x_presale x; x_owner x].
Definition server_keys (s : server_meta) : list addr := [s_presale s].

Section WithCrypto.
Context `{Crypto}.
Hypothesis Hsz : forall a, is_hash (addr_bytes a) = true.

Lemma key_length a : List.length (addr_bytes a) = 32%nat.
Proof. apply is_hash_length, Hsz. Qed.
Lemma key_u8 a : forallb in_u8 (addr_bytes a) = true.
Proof. specialize (Hsz a). unfold is_hash in Hsz. apply andb_true_iff in Hsz as [_ ->]. reflexivity. Qed.

Context (find : bytes -> addr).
Notation found l := (Forall (fun a => find (addr_bytes a) = a) l).
Ltac split_found := repeat match goal with
  | X : found (_ :: _) |- _ => apply List.Forall_cons_iff in X as [? X]
  | X : found [] |- _ => clear X end.

Lemma presale_round p : presale_fits p -> found (presale_keys p) -> presale_load find (presale_data p) = Some p.
Proof.
  intros [F1 F2 F3 F4 [Hlen F5]] Hk. unfold presale_keys in Hk. split_found. split_fits.
  unfold presale_load, presale_data. rewrite body_of, parts_concat.
  - unfold presale_parts. destruct (raw_slices p) as (-> & -> & ->).
    replace (map (fun i => registry_read (slice (concat (map registry_bytes (p_regs p)))
      (i * size_of registry_fields) (size_of registry_fields))) [0; 1; 2; 3; 4]) with (p_regs p).
    + rewrite !flag_round. read_ints.
      repeat match goal with X : find _ = _ |- _ => rewrite X; clear X end. destruct p; reflexivity.
    + rewrite <- (map_map (fun i => slice (concat (map registry_bytes (p_regs p)))
        (i * size_of registry_fields) (size_of registry_fields)) registry_read).
      rewrite regs_slices, map_map by assumption. clear - F5.
      induction F5 as [|r l Hr _ IH]; [reflexivity|]. cbn [map]. rewrite registry_round by assumption. congruence.
  - vm_compute. reflexivity.
  - unfold presale_parts. cbn [map].
    rewrite !key_length, !le_bytes_length, !zeros_length, raw_length, regs_length by assumption. reflexivity.
Qed.

Lemma escrow_round e : escrow_fits e -> found (escrow_keys e) -> escrow_load find (escrow_data e) = Some e.
Proof.
  intros [F1 F2] Hk. unfold escrow_keys in Hk. split_found. split_fits.
  unfold escrow_load, escrow_data. rewrite body_of, parts_concat.
  - unfold escrow_parts. read_ints. repeat match goal with X : find _ = _ |- _ => rewrite X; clear X end.
    destruct e; reflexivity.
  - reflexivity.
  - unfold escrow_parts. cbn [map]. rewrite !key_length, !le_bytes_length, !zeros_length. reflexivity.
Qed.

Lemma merkle_round c : merkle_fits c -> found (merkle_keys c) -> merkle_load find (merkle_data c) = Some c.
Proof.
  intros [[F0 F1] F2] Hk. unfold merkle_keys in Hk. split_found.
  unfold merkle_load, merkle_data. rewrite body_of, parts_concat.
  - unfold merkle_parts. read_ints. repeat match goal with X : find _ = _ |- _ => rewrite X; clear X end.
    destruct c; reflexivity.
  - reflexivity.
  - unfold merkle_parts. cbn [map]. rewrite !key_length, !le_bytes_length, !zeros_length, F0. reflexivity.
Qed.

Lemma operator_round o : found (operator_keys o) -> operator_load find (operator_data o) = Some o.
Proof.
  intros Hk. unfold operator_keys in Hk. split_found.
  unfold operator_load, operator_data. rewrite body_of, parts_concat.
  - unfold operator_parts. repeat match goal with X : find _ = _ |- _ => rewrite X; clear X end. destruct o; reflexivity.
  - reflexivity.
  - unfold operator_parts. cbn [map]. rewrite !key_length, !zeros_length. reflexivity.
Qed.

Lemma fixed_round x : fixed_fits x -> found (fixed_keys x) -> fixed_load find (fixed_data x) = Some x.
Proof.
  intros [F1 F2] Hk. unfold fixed_keys in Hk. split_found.
  unfold fixed_load, fixed_data. rewrite body_of, parts_concat.
  - unfold fixed_parts. read_ints. repeat match goal with X : find _ = _ |- _ => rewrite X; clear X end.
    destruct x; reflexivity.
  - reflexivity.
  - unfold fixed_parts. cbn [map]. rewrite !key_length, !le_bytes_length, !zeros_length. reflexivity.
Qed.

Lemma server_round s : Z.of_nat (List.length (s_url s)) < 2 ^ 32 -> found (server_keys s) ->
  server_load find (server_data s) = Some s.
Proof.
  intros Hu Hk. unfold server_keys in Hk. split_found.
  unfold server_load, server_data. rewrite body_of.
  set (n := Z.of_nat (List.length (s_url s))) in *.
  pose proof (parts_concat [(32, 1); (128, 1); (4, 1); (n, 1)]
    [addr_bytes (s_presale s); zeros 128; le_bytes 4 n; s_url s]) as Hp.
  cbn [concat] in Hp. rewrite app_nil_r in Hp.
  set (b := addr_bytes (s_presale s) ++ zeros 128 ++ le_bytes 4 n ++ s_url s) in *.
  unfold parts, place, round_up in Hp. cbn [map fst snd] in Hp. rewrite !Z.div_1_r, !Z.mul_1_r in Hp.
  rewrite key_length, zeros_length, le_bytes_length in Hp. fold n in Hp.
  assert (Ht : tight 0 [(32, 1); (128, 1); (4, 1); (n, 1)] = true).
  { cbn. unfold round_up. assert (0 <= n) by (unfold n; lia). rewrite (proj2 (Z.leb_le 0 n)) by assumption. reflexivity. }
  specialize (Hp Ht eq_refl). cbn -[le_bytes slice zeros] in Hp. injection Hp as P1 P2 P3 P4.
  match type of P1 with slice _ ?o _ = _ => replace o with 0 in P1 by lia end.
  match type of P3 with slice _ ?o _ = _ => replace o with 160 in P3 by lia end.
  match type of P4 with slice _ ?o _ = _ => replace o with 164 in P4 by lia end.
  match type of P3 with ?x = _ => change (x = le_bytes 4 n) in P3 end. cbv zeta. rewrite P1, P3, of_le_bytes by (cbn; unfold n in *; lia).
  assert (Hlb : Z.of_nat (List.length b) = 164 + n).
  { unfold b. rewrite !app_length, key_length, zeros_length, le_bytes_length. unfold n. lia. }
  rewrite Hlb, Z.ltb_irrefl, P4. match goal with X : find _ = _ |- _ => rewrite X end. destruct s; reflexivity.
Qed.

(** Sizes of the data, and that it consists of bytes. *)
Lemma zeros_u8 n : forallb in_u8 (zeros n) = true.
Proof. induction n as [|n IH]; [reflexivity|]. exact IH. Qed.
Lemma take_u8 n b : forallb in_u8 b = true -> forallb in_u8 (take n b) = true.
Proof.
  revert n. induction b as [|x b IH]; intros n Hb; [destruct n; reflexivity|]. destruct n; [reflexivity|].
  cbn in *. apply andb_true_iff in Hb as [-> Hb]. apply IH. assumption.
Qed.
Lemma discriminator_u8 k : forallb in_u8 (discriminator k) = true.
Proof.
  unfold discriminator, account_discriminator. apply take_u8.
  pose proof (sha256_is_hash (str ("account:" ++ kind_name k))) as Hh. unfold is_hash in Hh.
  apply andb_true_iff in Hh as [_ Hh]. exact Hh.
Qed.
Lemma registry_u8 r : forallb in_u8 (registry_bytes r) = true.
Proof.
  unfold registry_bytes, registry_parts. cbn [concat]. rewrite !forallb_app, !le_bytes_u8, !zeros_u8. reflexivity.
Qed.
Lemma raw_u8 p : forallb in_u8 (raw_bytes p) = true.
Proof. unfold raw_bytes. rewrite !forallb_app, !le_bytes_u8. reflexivity. Qed.

Definition of_size (n : Z) (b : bytes) : Prop := Z.of_nat (List.length b) = 8 + n /\ forallb in_u8 b = true.

Lemma presale_size p : presale_fits p -> of_size (size_of presale_fields) (presale_data p).
Proof.
  intros [_ _ _ _ [Hlen _]]. unfold of_size, presale_data, presale_parts. cbn [concat].
  rewrite !app_length, !key_length, !le_bytes_length, !zeros_length, raw_length, discriminator_length, regs_length
    by assumption.
  split; [reflexivity|].
  rewrite !forallb_app, !key_u8, !le_bytes_u8, !zeros_u8, raw_u8, discriminator_u8, forallb_concat; [reflexivity|].
  intros x Hx. apply elem_of_list_In, in_map_iff in Hx as (r & <- & _). apply registry_u8.
Qed.
Lemma escrow_size e : of_size (size_of escrow_fields) (escrow_data e).
Proof.
  unfold of_size, escrow_data, escrow_parts. cbn [concat].
  rewrite !app_length, !key_length, !le_bytes_length, !zeros_length, discriminator_length. split; [reflexivity|].
  rewrite !forallb_app, !key_u8, !le_bytes_u8, !zeros_u8, discriminator_u8. reflexivity.
Qed.
Lemma merkle_size c : merkle_fits c -> of_size (size_of merkle_fields) (merkle_data c).
Proof.
  intros [[Hl Hu] _]. unfold of_size, merkle_data, merkle_parts. cbn [concat].
  rewrite !app_length, !key_length, !le_bytes_length, !zeros_length, discriminator_length, Hl. split; [reflexivity|].
  rewrite !forallb_app, !key_u8, !le_bytes_u8, !zeros_u8, discriminator_u8. rewrite andb_true_r, andb_true_l.
  apply forallb_forall. intros x Hx. rewrite List.Forall_forall in Hu. apply Hu in Hx. unfold in_u8, fits in *. lia.
Qed.
Lemma operator_size o : of_size (size_of operator_fields) (operator_data o).
Proof.
  unfold of_size, operator_data, operator_parts. cbn [concat].
  rewrite !app_length, !key_length, !zeros_length, discriminator_length. split; [reflexivity|].
  rewrite !forallb_app, !key_u8, !zeros_u8, discriminator_u8. reflexivity.
Qed.
Lemma fixed_size x : of_size (size_of fixed_fields) (fixed_data x).
Proof.
  unfold of_size, fixed_data, fixed_parts. cbn [concat].
  rewrite !app_length, !key_length, !le_bytes_length, !zeros_length, discriminator_length. split; [reflexivity|].
  rewrite !forallb_app, !key_u8, !le_bytes_u8, !zeros_u8, discriminator_u8. reflexivity.
Qed.
Lemma server_size s : forallb in_u8 (s_url s) = true -> of_size (server_space (s_url s) - 8) (server_data s).
Proof.
  intros Hu. unfold of_size, server_data, server_space.
  rewrite !app_length, !key_length, !le_bytes_length, !zeros_length, discriminator_length. split; [lia|].
  rewrite !forallb_app, !key_u8, !le_bytes_u8, !zeros_u8, discriminator_u8, Hu. reflexivity.
Qed.

End WithCrypto.

(** * One store of bytes for all accounts of the program *)

Section WithCrypto.
Context `{Crypto}.

(** The accounts owned by the program, with their data. *)
Definition store (w : world) : gmap addr bytes :=
  (presale_data <$> w_presales w) ∪ ((escrow_data <$> w_escrows w) ∪ ((merkle_data <$> w_merkles w) ∪
  ((operator_data <$> w_opers w) ∪ ((fixed_data <$> w_fixed w) ∪ (server_data <$> w_servers w))))).

(** The keys stored in them. *)
Definition stored_keys (w : world) : list addr :=
  flat_map (fun x => presale_keys x.2) (map_to_list (w_presales w)) ++
  flat_map (fun x => escrow_keys x.2) (map_to_list (w_escrows w)) ++
  flat_map (fun x => merkle_keys x.2) (map_to_list (w_merkles w)) ++
  flat_map (fun x => operator_keys x.2) (map_to_list (w_opers w)) ++
  flat_map (fun x => fixed_keys x.2) (map_to_list (w_fixed w)) ++
  flat_map (fun x => server_keys x.2) (map_to_list (w_servers w)).

(** Reading a stored key: the address with these bytes among [l]. *)
Definition find_in (l : list addr) (b : bytes) : addr :=
  default PAuth (List.find (fun a => bool_decide (addr_bytes a = b)) l).

Lemma find_in_spec l a : (forall x y, x ∈ l -> y ∈ l -> addr_bytes x = addr_bytes y -> x = y) -> a ∈ l ->
  find_in l (addr_bytes a) = a.
Proof.
  intros Hinj Ha. unfold find_in. destruct (List.find _ l) as [x|] eqn:Hf.
  - apply find_some in Hf as [Hx Hb]. apply bool_decide_eq_true in Hb. cbn.
    apply Hinj; [apply elem_of_list_In; assumption|assumption|assumption].
  - exfalso. apply elem_of_list_In in Ha. pose proof (find_none _ _ Hf _ Ha) as Hn. cbv beta in Hn.
    apply bool_decide_eq_false in Hn. auto.
Qed.

Lemma stored_in {A} (f : A -> list addr) (m : gmap addr A) k x a :
  m !! k = Some x -> a ∈ f x -> a ∈ flat_map (fun x => f x.2) (map_to_list m).
Proof.
  intros Hm Ha. apply elem_of_list_In, in_flat_map. exists (k, x). split; [|apply elem_of_list_In; exact Ha].
  apply elem_of_list_In, elem_of_map_to_list. exact Hm.
Qed.

(** Where accounts of each type live. *)
Lemma shape_presale w a p : inv w -> w_presales w !! a = Some p -> exists b x y, a = PPresale b x y.
Proof. intros Hi Hp. pose proof (c_key _ _ (q_cfg _ _ _ (i_presales _ Hi _ _ Hp))). eauto. Qed.
Lemma shape_escrow w a e : inv w -> w_escrows w !! a = Some e -> exists k o i, a = PEscrow k o i.
Proof.
  intros Hi He. destruct (i_escrows _ Hi _ _ He) as [p Hp].
  pose proof (s_key _ _ _ _ _ (a_esc _ _ _ _ (q_acct _ _ _ (i_presales _ Hi _ _ Hp)) _ _ He eq_refl)). eauto.
Qed.
Lemma shape_merkle w a c : inv w -> w_merkles w !! a = Some c -> exists k v, a = PMerkle k v.
Proof. intros Hi Hc. destruct (i_merkles _ Hi _ _ Hc) as [-> _]. eauto. Qed.
Lemma shape_oper w a o : inv w -> w_opers w !! a = Some o -> exists c x, a = POperator c x.
Proof. intros Hi Hc. rewrite (i_opers _ Hi _ _ Hc). eauto. Qed.
Lemma shape_fixed w a x : inv w -> w_fixed w !! a = Some x -> exists k, a = PFixedArgs k.
Proof. intros Hi Hc. destruct (i_fixed _ Hi _ _ Hc) as [-> _]. eauto. Qed.
Lemma shape_server w a s : inv w -> w_servers w !! a = Some s -> exists k, a = PServer k.
Proof. intros Hi Hc. destruct (i_servers _ Hi _ _ Hc) as [-> _]. eauto. Qed.

(** At most one of the six maps has an account at an address. *)
Inductive at_address (w : world) (a : addr) : Prop :=
| aa_none : w_presales w !! a = None -> w_escrows w !! a = None -> w_merkles w !! a = None ->
    w_opers w !! a = None -> w_fixed w !! a = None -> w_servers w !! a = None -> at_address w a
| aa_presale p : w_presales w !! a = Some p -> w_escrows w !! a = None -> w_merkles w !! a = None ->
    w_opers w !! a = None -> w_fixed w !! a = None -> w_servers w !! a = None -> at_address w a
| aa_escrow e : w_presales w !! a = None -> w_escrows w !! a = Some e -> w_merkles w !! a = None ->
    w_opers w !! a = None -> w_fixed w !! a = None -> w_servers w !! a = None -> at_address w a
| aa_merkle c : w_presales w !! a = None -> w_escrows w !! a = None -> w_merkles w !! a = Some c ->
    w_opers w !! a = None -> w_fixed w !! a = None -> w_servers w !! a = None -> at_address w a
| aa_oper o : w_presales w !! a = None -> w_escrows w !! a = None -> w_merkles w !! a = None ->
    w_opers w !! a = Some o -> w_fixed w !! a = None -> w_servers w !! a = None -> at_address w a
| aa_fixed x : w_presales w !! a = None -> w_escrows w !! a = None -> w_merkles w !! a = None ->
    w_opers w !! a = None -> w_fixed w !! a = Some x -> w_servers w !! a = None -> at_address w a
| aa_server s : w_presales w !! a = None -> w_escrows w !! a = None -> w_merkles w !! a = None ->
    w_opers w !! a = None -> w_fixed w !! a = None -> w_servers w !! a = Some s -> at_address w a.

Lemma address_cases w a : inv w -> at_address w a.
Proof.
  intros Hi.
  pose proof (fun p => shape_presale w a p Hi) as S1. pose proof (fun p => shape_escrow w a p Hi) as S2.
  pose proof (fun p => shape_merkle w a p Hi) as S3. pose proof (fun p => shape_oper w a p Hi) as S4.
  pose proof (fun p => shape_fixed w a p Hi) as S5. pose proof (fun p => shape_server w a p Hi) as S6.
  destruct (w_presales w !! a) as [p|] eqn:E1.
  { destruct (S1 p eq_refl) as (b & x & y & ->). eapply aa_presale; [exact E1|..];
      apply eq_None_not_Some; intros [z Hz];
      [destruct (S2 z Hz) as (?&?&?&?)|destruct (S3 z Hz) as (?&?&?)|destruct (S4 z Hz) as (?&?&?)
      |destruct (S5 z Hz) as (?&?)|destruct (S6 z Hz) as (?&?)]; discriminate. }
  destruct (w_escrows w !! a) as [p|] eqn:E2.
  { destruct (S2 p eq_refl) as (b & x & y & ->). eapply aa_escrow; [exact E1|exact E2|..];
      apply eq_None_not_Some; intros [z Hz];
      [destruct (S3 z Hz) as (?&?&?)|destruct (S4 z Hz) as (?&?&?)
      |destruct (S5 z Hz) as (?&?)|destruct (S6 z Hz) as (?&?)]; discriminate. }
  destruct (w_merkles w !! a) as [p|] eqn:E3.
  { destruct (S3 p eq_refl) as (b & x & ->). eapply aa_merkle; [exact E1|exact E2|exact E3|..];
      apply eq_None_not_Some; intros [z Hz];
      [destruct (S4 z Hz) as (?&?&?)|destruct (S5 z Hz) as (?&?)|destruct (S6 z Hz) as (?&?)]; discriminate. }
  destruct (w_opers w !! a) as [p|] eqn:E4.
  { destruct (S4 p eq_refl) as (b & x & ->). eapply aa_oper; [exact E1|exact E2|exact E3|exact E4|..];
      apply eq_None_not_Some; intros [z Hz];
      [destruct (S5 z Hz) as (?&?)|destruct (S6 z Hz) as (?&?)]; discriminate. }
  destruct (w_fixed w !! a) as [p|] eqn:E5.
  { destruct (S5 p eq_refl) as (b & ->). eapply aa_fixed; [exact E1|exact E2|exact E3|exact E4|exact E5|..];
      apply eq_None_not_Some; intros [z Hz]; destruct (S6 z Hz) as (?&?); discriminate. }
  destruct (w_servers w !! a) as [p|] eqn:E6.
  - eapply aa_server; eassumption.
  - apply aa_none; assumption.
Qed.

Lemma store_at w a : store w !! a =
  union_with (fun x _ => Some x) (presale_data <$> w_presales w !! a)
  (union_with (fun x _ => Some x) (escrow_data <$> w_escrows w !! a)
  (union_with (fun x _ => Some x) (merkle_data <$> w_merkles w !! a)
  (union_with (fun x _ => Some x) (operator_data <$> w_opers w !! a)
  (union_with (fun x _ => Some x) (fixed_data <$> w_fixed w !! a) (server_data <$> w_servers w !! a))))).
Proof.
  unfold store. unfold union, map_union. rewrite !lookup_union_with, !lookup_fmap. reflexivity.
Qed.

Lemma wrong_type k1 k2 b : k1 <> k2 -> body k1 (discriminator k2 ++ b) = None.
Proof.
  intros Hne. destruct (body k1 (discriminator k2 ++ b)) as [x|] eqn:Hb; [|reflexivity].
  exfalso. apply Hne. eapply C72_one_type; [exact Hb|apply body_of].
Qed.

(** Strings fit a Borsh string.  (The model puts no limit on the length of the server's address; the
    runtime limits a transaction to 1232 bytes.) *)
Definition urls_fit (w : world) : Prop :=
  forall k s, w_servers w !! k = Some s -> Z.of_nat (List.length (s_url s)) < 2 ^ 32 /\ forallb in_u8 (s_url s) = true.

(** The six typed maps of the model are exactly what loading from the one store of bytes gives. *)
Theorem C71_store w :
  (forall a, is_hash (addr_bytes a) = true) ->
  reachable w -> urls_fit w ->
  (forall a b, a ∈ stored_keys w -> b ∈ stored_keys w -> addr_bytes a = addr_bytes b -> a = b) ->
  let find := find_in (stored_keys w) in
  forall a,
    store w !! a ≫= presale_load find = w_presales w !! a /\
    store w !! a ≫= escrow_load find = w_escrows w !! a /\
    store w !! a ≫= merkle_load find = w_merkles w !! a /\
    store w !! a ≫= operator_load find = w_opers w !! a /\
    store w !! a ≫= fixed_load find = w_fixed w !! a /\
    store w !! a ≫= server_load find = w_servers w !! a.
Proof.
  intros Hsz Hw Hu Hinj find a. pose proof (reachable_inv _ Hw) as Hi. pose proof (C70_fields_fit _ Hw) as Hf.
  assert (Hfind : forall l, (forall x, x ∈ l -> x ∈ stored_keys w) ->
    Forall (fun a => find (addr_bytes a) = a) l).
  { intros l Hl. apply List.Forall_forall. intros x Hx. apply find_in_spec; [exact Hinj|].
    apply Hl, elem_of_list_In. exact Hx. }
  unfold stored_keys in Hfind. rewrite store_at.
  destruct (address_cases w a Hi) as [E1 E2 E3 E4 E5 E6|p E1 E2 E3 E4 E5 E6|e E1 E2 E3 E4 E5 E6|c E1 E2 E3 E4 E5 E6
    |o E1 E2 E3 E4 E5 E6|x E1 E2 E3 E4 E5 E6|s E1 E2 E3 E4 E5 E6];
    rewrite E1, E2, E3, E4, E5, E6; cbn [fmap option_fmap option_map union_with option_union_with mbind option_bind].
  - auto 6.
  - rewrite presale_round; [|exact Hsz|apply (wf_presales _ Hf _ _ E1)|apply Hfind].
    + split; [reflexivity|]. repeat split; first [unfold escrow_load|unfold merkle_load|unfold operator_load
        |unfold fixed_load|unfold server_load]; unfold presale_data; rewrite wrong_type by discriminate; reflexivity.
    + intros y Hy. apply elem_of_app. left. eapply stored_in; eassumption.
  - rewrite escrow_round; [|exact Hsz|apply (wf_escrows _ Hf _ _ E2)|apply Hfind].
    + repeat split; first [unfold presale_load|unfold merkle_load|unfold operator_load
        |unfold fixed_load|unfold server_load]; unfold escrow_data; rewrite wrong_type by discriminate; reflexivity.
    + intros y Hy. do 1 (apply elem_of_app; right). apply elem_of_app. left. eapply stored_in; eassumption.
  - rewrite merkle_round; [|exact Hsz|apply (wf_merkles _ Hf _ _ E3)|apply Hfind].
    + repeat split; first [unfold presale_load|unfold escrow_load|unfold operator_load
        |unfold fixed_load|unfold server_load]; unfold merkle_data; rewrite wrong_type by discriminate; reflexivity.
    + intros y Hy. do 2 (apply elem_of_app; right). apply elem_of_app. left. eapply stored_in; eassumption.
  - rewrite operator_round; [|exact Hsz|apply Hfind].
    + repeat split; first [unfold presale_load|unfold escrow_load|unfold merkle_load
        |unfold fixed_load|unfold server_load]; unfold operator_data; rewrite wrong_type by discriminate; reflexivity.
    + intros y Hy. do 3 (apply elem_of_app; right). apply elem_of_app. left. eapply stored_in; eassumption.
  - rewrite fixed_round; [|exact Hsz|apply (wf_fixed _ Hf _ _ E5)|apply Hfind].
    + repeat split; first [unfold presale_load|unfold escrow_load|unfold merkle_load
        |unfold operator_load|unfold server_load]; unfold fixed_data; rewrite wrong_type by discriminate; reflexivity.
    + intros y Hy. do 4 (apply elem_of_app; right). apply elem_of_app. left. eapply stored_in; eassumption.
  - rewrite server_round; [|exact Hsz|apply (Hu _ _ E6)|apply Hfind].
    + repeat split; first [unfold presale_load|unfold escrow_load|unfold merkle_load
        |unfold operator_load|unfold fixed_load]; unfold server_data; rewrite wrong_type by discriminate; reflexivity.
    + intros y Hy. do 5 (apply elem_of_app; right). eapply stored_in; eassumption.
Qed.

Lemma some_eq {A} (x y : A) : Some x = Some y -> x = y.
Proof. congruence. Qed.

(** All data in the store has the size that was allocated for it ([8 + INIT_SPACE], or by the length
    of the string) and consists of bytes. *)
Theorem C71_allocated w a b :
  (forall a, is_hash (addr_bytes a) = true) -> reachable w -> urls_fit w -> store w !! a = Some b ->
  forallb in_u8 b = true /\
  Z.of_nat (List.length b) = match a with
    | PPresale _ _ _ => 8 + 1264 | PEscrow _ _ _ => 8 + 192 | PMerkle _ _ => 8 + 144 | POperator _ _ => 8 + 128
    | PFixedArgs _ => 8 + 160
    | _ => match w_servers w !! a with Some s => server_space (s_url s) | None => 0 end
    end.
Proof.
  intros Hsz Hw Hu Hb. pose proof (reachable_inv _ Hw) as Hi. pose proof (C70_fields_fit _ Hw) as Hf.
  rewrite store_at in Hb.
  destruct (address_cases w a Hi) as [E1 E2 E3 E4 E5 E6|p E1 E2 E3 E4 E5 E6|e E1 E2 E3 E4 E5 E6|c E1 E2 E3 E4 E5 E6
    |o E1 E2 E3 E4 E5 E6|x E1 E2 E3 E4 E5 E6|s E1 E2 E3 E4 E5 E6];
    rewrite E1, E2, E3, E4, E5, E6 in Hb;
    cbn [fmap option_fmap option_map union_with option_union_with] in Hb; [discriminate Hb|apply some_eq in Hb; subst b..].
  - destruct (presale_size Hsz _ (wf_presales _ Hf _ _ E1)) as [Hl ->]. destruct (shape_presale _ _ _ Hi E1) as (?&?&?&->).
    split; [reflexivity|exact Hl].
  - destruct (escrow_size Hsz e) as [Hl ->]. destruct (shape_escrow _ _ _ Hi E2) as (?&?&?&->).
    split; [reflexivity|exact Hl].
  - destruct (merkle_size Hsz c (wf_merkles _ Hf _ _ E3)) as [Hl ->]. destruct (shape_merkle _ _ _ Hi E3) as (?&?&->).
    split; [reflexivity|exact Hl].
  - destruct (operator_size Hsz o) as [Hl ->]. destruct (shape_oper _ _ _ Hi E4) as (?&?&->).
    split; [reflexivity|exact Hl].
  - destruct (fixed_size Hsz x) as [Hl ->]. destruct (shape_fixed _ _ _ Hi E5) as (?&->).
    split; [reflexivity|exact Hl].
  - destruct (server_size Hsz s (proj2 (Hu _ _ E6))) as [Hl ->]. destruct (shape_server _ _ _ Hi E6) as (?&->).
    rewrite E6. split; [reflexivity|]. rewrite Hl. lia.
Qed.

End WithCrypto.

(** * The data of the presale mode *)

(** The two structs have the size and (on the chain, and on the host) the alignment of the stored
    [[u128; 3]], which is what [bytemuck::try_from_bytes] tests. *)
Theorem C71_mode_data_shape :
  size_of fixed_handler_fields = 48 /\ size_of fcfs_handler_fields = 48 /\
  align_of fixed_handler_fields = align_of [u128] /\ align_of fcfs_handler_fields = align_of [u128].
Proof. repeat split; reflexivity. Qed.

Lemma le_bytes_16_split z : le_bytes 16 z = [z mod 256] ++ [z / 256 mod 256] ++ le_bytes 14 (z / 256 / 256).
Proof. reflexivity. Qed.
Lemma le_bytes_16_cons z : le_bytes 16 z = [z mod 256] ++ le_bytes 15 (z / 256).
Proof. reflexivity. Qed.

Ltac Zify.zify_post_hook ::= Z.to_euclidean_division_equations.

(** The model's arithmetic on the three words is the byte view of the code. *)
Theorem C71_mode_data_read p : presale_fits p -> handler_at p = get_handler p.
Proof.
  intros [_ _ _ F _]. repeat (apply List.Forall_cons_iff in F as [? F]). unfold fits in *.
  unfold handler_at, get_handler. destruct (cast_mode (p_mode p)) as [[]|]; cbn [rbind]; [|reflexivity| |reflexivity].
  - assert (Hp : parts fixed_handler_fields (raw_bytes p) =
      [le_bytes 16 (p_raw0 p); [p_raw1 p mod 256]; [p_raw1 p / 256 mod 256]; le_bytes 14 (p_raw1 p / 256 / 256);
       le_bytes 16 (p_raw2 p)]) by reflexivity.
    rewrite Hp, of_le_u128 by assumption. cbn [of_le]. rewrite !Z.mul_0_r, !Z.add_0_r. reflexivity.
  - assert (Hp : parts fcfs_handler_fields (raw_bytes p) =
      [[p_raw0 p mod 256]; le_bytes 15 (p_raw0 p / 256); le_bytes 16 (p_raw1 p) ++ le_bytes 16 (p_raw2 p)])
      by reflexivity.
    rewrite Hp. cbn [of_le]. rewrite !Z.mul_0_r, !Z.add_0_r. reflexivity.
Qed.

Theorem C71_mode_data_written p q de dw :
  fits U8MAX de -> fits U8MAX dw ->
  raw_bytes (fixed_initialize_data p q de dw) = fixed_write q de dw (raw_bytes p) /\
  raw_bytes (fcfs_initialize_data p de) = fcfs_write de (raw_bytes p).
Proof.
  unfold fits, U8MAX. intros Hde Hdw. split.
  - assert (Hw : fixed_write q de dw (raw_bytes p) = le_bytes 16 q ++ [dw mod 256] ++ [de mod 256] ++
      le_bytes 14 (p_raw1 p / 256 / 256) ++ le_bytes 16 (p_raw2 p)) by reflexivity.
    rewrite Hw. unfold raw_bytes, fixed_initialize_data. cbn [p_raw0 p_raw1 p_raw2 set_p_raw0 set_p_raw1].
    rewrite (le_bytes_16_split (_ + _)). rewrite <- !app_assoc.
    replace ((p_raw1 p / 65536 * 65536 + de * 256 + dw) / 256 / 256) with (p_raw1 p / 256 / 256)
      by (rewrite !Z.div_div by lia; clear -Hde Hdw; nia || lia).
    replace ((p_raw1 p / 65536 * 65536 + de * 256 + dw) / 256 mod 256) with (de mod 256) by lia.
    replace ((p_raw1 p / 65536 * 65536 + de * 256 + dw) mod 256) with (dw mod 256) by lia.
    reflexivity.
  - assert (Hw : fcfs_write de (raw_bytes p) = [de mod 256] ++ le_bytes 15 (p_raw0 p / 256) ++
      le_bytes 16 (p_raw1 p) ++ le_bytes 16 (p_raw2 p)) by reflexivity.
    rewrite Hw. unfold raw_bytes, fcfs_initialize_data. cbn [p_raw0 p_raw1 p_raw2 set_p_raw0].
    rewrite (le_bytes_16_cons (_ + _)). rewrite <- !app_assoc.
    replace ((p_raw0 p / 256 * 256 + de) / 256) with (p_raw0 p / 256) by lia.
    replace ((p_raw0 p / 256 * 256 + de) mod 256) with (de mod 256) by lia.
    reflexivity.
Qed.

(** * Examples *)

Section Examples.
#[local] Existing Instance toy.

Lemma toy_keys a : is_hash (addr_bytes a) = true.
Proof. unfold is_hash. cbn [addr_bytes toy]. rewrite le_bytes_length, le_bytes_u8. reflexivity. Qed.

Definition apart (l : list addr) : bool :=
  forallb (fun a => forallb (fun b => negb (bool_decide (addr_bytes a = addr_bytes b)) || bool_decide (a = b)) l) l.
Lemma apart_inj l : apart l = true -> forall a b, a ∈ l -> b ∈ l -> addr_bytes a = addr_bytes b -> a = b.
Proof.
  intros Hl a b Ha Hb He. unfold apart in Hl. rewrite forallb_forall in Hl.
  apply elem_of_list_In in Ha. apply elem_of_list_In in Hb. specialize (Hl _ Ha). rewrite forallb_forall in Hl.
  specialize (Hl _ Hb). rewrite (bool_decide_eq_true_2 _ He) in Hl. cbn [negb orb] in Hl.
  apply bool_decide_eq_true in Hl. exact Hl.
Qed.

Definition urls_fit_b (w : world) : bool :=
  forallb (fun x => (Z.of_nat (List.length (s_url x.2)) <? 2 ^ 32) && forallb in_u8 (s_url x.2)) (map_to_list (w_servers w)).
Lemma urls_fit_ok w : urls_fit_b w = true -> urls_fit w.
Proof.
  intros Hb k s Hs. unfold urls_fit_b in Hb. rewrite forallb_forall in Hb.
  specialize (Hb (k, s)). cbn [snd] in Hb. apply andb_true_iff in Hb as [Hl Hu].
  - split; [apply Z.ltb_lt; exact Hl|exact Hu].
  - apply elem_of_list_In, elem_of_map_to_list. exact Hs.
Qed.

(** A presale with a merkle whitelist, its root, its server and an escrow; and a fixed price one. *)
Example C71_store_met :
  (reachable w_mk_open /\ urls_fit w_mk_open /\
   (forall a b, a ∈ stored_keys w_mk_open -> b ∈ stored_keys w_mk_open -> addr_bytes a = addr_bytes b -> a = b)) /\
  (reachable w_fx_over /\ urls_fit w_fx_over /\
   (forall a b, a ∈ stored_keys w_fx_over -> b ∈ stored_keys w_fx_over -> addr_bytes a = addr_bytes b -> a = b)).
Proof.
  split; (split; [apply reach|split; [apply urls_fit_ok; vm_compute; reflexivity|apply apart_inj; vm_compute; reflexivity]]).
Qed.
(** Sizes of the stored accounts, and bytes read back out of the middle of one. *)
Example C71_sizes_met :
  (List.length <$> store w_mk_open !! k1) = Some 1272%nat /\
  (List.length <$> store w_mk_open !! PServer k1) = Some 176%nat /\
  (List.length <$> store w_mk_open !! PMerkle k1 7) = Some 152%nat /\
  (List.length <$> store w_fx_over !! PFixedArgs k1) = Some 168%nat /\
  (fun b => of_le (slice b (8 + 240) 8)) <$> store w_fx_over !! k1 = p_deposit <$> w_presales w_fx_over !! k1 /\
  (p_deposit <$> w_presales w_fx_over !! k1) <> Some 0.
Proof. vm_compute. repeat split; discriminate. Qed.
Example C71_mode_data_met :
  match w_presales w_fx_over !! k1 with
  | Some p => handler_at p = get_handler p /\ handler_at p <> Ok (HFixed 0 0 0)
  | None => False
  end.
Proof. vm_compute. split; [reflexivity|discriminate]. Qed.
End Examples.
