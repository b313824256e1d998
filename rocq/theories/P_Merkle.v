(** C28 and C29: the whitelists built off-chain and the on-chain merkle verifier. *)
From Verif Require Import Base Math State Handlers Token World Instr Exec Tactics Sums Spec Arith
  TokenFacts Inv Acct Funs Steps Init Preserve Reach Did Trans Flow Merkle Scenario P_Access P_History.
From Coq Require Import ZifyNat.
Ltac Zify.zify_post_hook ::= Z.to_euclidean_division_equations.

(** * Levels of a tree *)

Lemma next_len_lt n : (0 < n)%nat -> (next_level_len n < n)%nat.
Proof. unfold next_level_len. intros Hn. destruct (Nat.eqb_spec n 1); lia. Qed.
Lemma next_len_one : next_level_len 1 = 0%nat.
Proof. reflexivity. Qed.
Lemma next_len_pos n : (2 <= n)%nat -> (0 < next_level_len n)%nat.
Proof. unfold next_level_len. intros Hn. destruct (Nat.eqb_spec n 1); lia. Qed.
Lemma next_len_kid n i : (i < next_level_len n)%nat -> (2 * i < n)%nat.
Proof. unfold next_level_len. destruct (Nat.eqb_spec n 1); lia. Qed.
Lemma next_len_half n i : (2 <= n)%nat -> (i < n)%nat -> (i / 2 < next_level_len n)%nat.
Proof. unfold next_level_len. destruct (Nat.eqb_spec n 1); lia. Qed.

Section WithCrypto.
Context `{Crypto}.

(** The [i]-th entry of a level. *)
Definition kid (cur : list bytes) (i : nat) : bytes := match cur !! i with Some x => x | None => [] end.

(** What is hashed into the [i]-th entry of the next level. *)
Definition par_in (sorted : bool) (cur : list bytes) (i : nat) : bytes :=
  let l := kid cur (2 * i) in
  let r := if (2 * i + 1 <? length cur)%nat then kid cur (2 * i + 1) else kid cur (2 * i) in
  if sorted && negb (bytes_le l r) then [1] ++ r ++ l else [1] ++ l ++ r.

Definition ins (sorted : bool) (cur : list bytes) : list bytes :=
  map (par_in sorted cur) (seq 0 (next_level_len (length cur))).
Definition up (sorted : bool) (cur : list bytes) : list bytes := map hashv (ins sorted cur).

(** The levels above [cur]. *)
Fixpoint tower (fuel : nat) (sorted : bool) (cur : list bytes) : list (list bytes) :=
  match fuel with
  | O => []
  | S fuel => if (next_level_len (length cur) =? 0)%nat then []
              else up sorted cur :: tower fuel sorted (up sorted cur)
  end.

(** Everything hashed into the levels above [cur]. *)
Fixpoint tower_ins (fuel : nat) (sorted : bool) (cur : list bytes) : list bytes :=
  match fuel with
  | O => []
  | S fuel => if (next_level_len (length cur) =? 0)%nat then []
              else ins sorted cur ++ tower_ins fuel sorted (up sorted cur)
  end.

Lemma up_length sorted cur : length (up sorted cur) = next_level_len (length cur).
Proof. unfold up, ins. rewrite !map_length, seq_length. reflexivity. Qed.

Lemma at_kid pre cur post i :
  (i < length cur)%nat -> at_ (pre ++ cur ++ post) (length pre + i) = Ok (kid cur i).
Proof.
  intros Hi. unfold at_, kid. rewrite lookup_app_r by lia.
  replace (length pre + i - length pre)%nat with i by lia.
  rewrite lookup_app_l by lia.
  destruct (lookup_lt_is_Some_2 cur i Hi) as (x & Hx). rewrite !Hx. reflexivity.
Qed.

Lemma push_level_up sorted pre cur : forall is acc,
  (forall i, i ∈ is -> (2 * i < length cur)%nat) ->
  push_level sorted (pre ++ cur ++ acc) (length pre) (length cur) is =
  Ok (pre ++ cur ++ acc ++ map hashv (map (par_in sorted cur) is)).
Proof.
  induction is as [|i is IH]; intros acc Hi.
  { cbn. rewrite app_nil_r. reflexivity. }
  cbn [push_level map].
  assert (H2 : (2 * i < length cur)%nat) by (apply Hi; left).
  rewrite at_kid by lia. cbn [rbind].
  replace (if (2 * i + 1 <? length cur)%nat then at_ (pre ++ cur ++ acc) (length pre + 2 * i + 1)
           else Ok (kid cur (2 * i)))
    with (Ok (if (2 * i + 1 <? length cur)%nat then kid cur (2 * i + 1) else kid cur (2 * i))).
  2: { destruct (Nat.ltb_spec (2 * i + 1) (length cur)).
       - rewrite <- Nat.add_assoc. rewrite at_kid by lia. reflexivity.
       - reflexivity. }
  cbn [rbind].
  assert (Hpar : parent sorted (kid cur (2 * i))
      (if (2 * i + 1 <? length cur)%nat then kid cur (2 * i + 1) else kid cur (2 * i)) =
      hashv (par_in sorted cur i)).
  { unfold par_in, parent, hash_intermediate. destruct sorted; cbn [andb]; [|reflexivity].
    destruct (bytes_le _ _); reflexivity. }
  rewrite Hpar.
  replace ((pre ++ cur ++ acc) ++ [hashv (par_in sorted cur i)])
    with (pre ++ cur ++ (acc ++ [hashv (par_in sorted cur i)])) by (rewrite <- !app_assoc; reflexivity).
  rewrite IH.
  - rewrite <- !app_assoc. reflexivity.
  - intros j Hj. apply Hi. right. exact Hj.
Qed.

Lemma push_levels_tower sorted : forall fuel pre cur, (length cur <= fuel)%nat ->
  push_levels fuel sorted (pre ++ cur) (length pre + length cur) (next_level_len (length cur))
    (length pre) (length cur) = Ok (pre ++ cur ++ concat (tower fuel sorted cur)).
Proof.
  induction fuel as [|fuel IH]; intros pre cur Hf; cbn [push_levels tower].
  { replace (length cur) with 0%nat by lia. cbn. rewrite app_nil_r. reflexivity. }
  destruct (next_level_len (length cur) =? 0)%nat eqn:E.
  { cbn. rewrite app_nil_r. reflexivity. }
  apply Nat.eqb_neq in E.
  assert (Hlt : (next_level_len (length cur) < length cur)%nat).
  { apply next_len_lt. destruct cur; cbn in *; lia. }
  pose proof (push_level_up sorted pre cur (seq 0 (next_level_len (length cur))) []) as Hp.
  rewrite app_nil_r in Hp. rewrite Hp.
  2: { intros i Hi. apply elem_of_seq in Hi. apply next_len_kid. lia. }
  cbn [rbind app]. change (map hashv _) with (up sorted cur).
  specialize (IH (pre ++ cur) (up sorted cur)).
  rewrite app_length, up_length in IH. rewrite <- app_assoc in IH. rewrite IH by lia.
  cbn [concat]. rewrite <- !app_assoc. reflexivity.
Qed.

(** More fuel than leaves changes nothing: the loop has stopped by itself. *)
Lemma tower_fuel sorted : forall f g cur,
  (length cur <= f)%nat -> (length cur <= g)%nat -> tower f sorted cur = tower g sorted cur.
Proof.
  induction f as [|f IH]; intros [|g] cur Hf Hg; cbn [tower]; try reflexivity.
  - replace (length cur) with 0%nat by lia. reflexivity.
  - replace (length cur) with 0%nat by lia. reflexivity.
  - destruct (next_level_len (length cur) =? 0)%nat eqn:E; [reflexivity|].
    apply Nat.eqb_neq in E.
    assert (0 < length cur)%nat by (destruct cur; cbn in *; [lia|lia]).
    pose proof (next_len_lt (length cur)). f_equal. apply IH; rewrite up_length; lia.
Qed.
Lemma push_levels_fuel sorted fuel cur :
  (length cur <= fuel)%nat ->
  push_levels fuel sorted cur (length cur) (next_level_len (length cur)) 0 (length cur) =
  push_levels (length cur) sorted cur (length cur) (next_level_len (length cur)) 0 (length cur).
Proof.
  intros Hf. pose proof (push_levels_tower sorted fuel [] cur Hf) as H1.
  pose proof (push_levels_tower sorted (length cur) [] cur (Nat.le_refl _)) as H2.
  cbn [app length Nat.add] in H1, H2. rewrite H1, H2.
  rewrite (tower_fuel sorted fuel (length cur)); auto.
Qed.

Definition leaves (items : list bytes) : list bytes := map hash_leaf items.
Definition all_nodes (sorted : bool) (items : list bytes) : list bytes :=
  leaves items ++ concat (tower (length items) sorted (leaves items)).

Lemma leaves_length items : length (leaves items) = length items.
Proof. apply map_length. Qed.

Lemma tree_new_nodes items sorted :
  tree_new items sorted = Ok (mkTree (length items) (all_nodes sorted items)).
Proof.
  unfold tree_new. change (map hash_leaf items) with (leaves items).
  pose proof (push_levels_tower sorted (length items) [] (leaves items)) as Hp.
  cbn [length app] in Hp. rewrite !leaves_length in Hp. cbn [Nat.add] in Hp.
  rewrite (Hp (Nat.le_refl _)).
  reflexivity.
Qed.

(** The last node is the single entry of the last level. *)
Fixpoint top (fuel : nat) (sorted : bool) (cur : list bytes) : bytes :=
  match fuel with
  | O => kid cur 0
  | S fuel => if (next_level_len (length cur) =? 0)%nat then kid cur 0
              else top fuel sorted (up sorted cur)
  end.

Lemma last_tower sorted : forall fuel cur, (0 < length cur <= fuel)%nat ->
  list.last (cur ++ concat (tower fuel sorted cur)) = Some (top fuel sorted cur).
Proof.
  induction fuel as [|fuel IH]; intros cur Hf; [lia|]. cbn [tower top].
  destruct (next_level_len (length cur) =? 0)%nat eqn:E.
  - cbn [concat]. rewrite app_nil_r. apply Nat.eqb_eq in E.
    destruct cur as [|x [|y cur]]; cbn [length] in *; [lia|reflexivity|].
    pose proof (next_len_pos (S (S (length cur)))). lia.
  - apply Nat.eqb_neq in E. cbn [concat]. rewrite last_app.
    pose proof (next_len_lt (length cur)).
    rewrite IH by (rewrite up_length; lia). reflexivity.
Qed.

Lemma get_root_top items sorted : items <> [] ->
  get_root (mkTree (length items) (all_nodes sorted items)) =
  Some (top (length items) sorted (leaves items)).
Proof.
  intros Hne. unfold get_root, all_nodes. cbn [t_nodes]. apply last_tower.
  rewrite leaves_length. destruct items; cbn; [congruence|lia].
Qed.

(** * Paths *)

Definition lsib (cur : list bytes) (i : nat) : option bytes :=
  if (i mod 2 =? 0)%nat then None else Some (kid cur (i - 1)).
Definition rsib (cur : list bytes) (i : nat) : option bytes :=
  if (i mod 2 =? 0)%nat then
    Some (if (i + 1 <? length cur)%nat then kid cur (i + 1) else kid cur i)
  else None.
Definition sib (cur : list bytes) (i : nat) : bytes :=
  if (i mod 2 =? 0)%nat then (if (i + 1 <? length cur)%nat then kid cur (i + 1) else kid cur i)
  else kid cur (i - 1).

Fixpoint branch (fuel : nat) (sorted : bool) (cur : list bytes) (i : nat) : list pentry :=
  match fuel with
  | O => []
  | S fuel => if (next_level_len (length cur) =? 0)%nat then []
              else mkEntry (kid (up sorted cur) (i / 2)) (lsib cur i) (rsib cur i) ::
                   branch fuel sorted (up sorted cur) (i / 2)
  end.

Lemma path_loop_branch sorted : forall fuel pre cur i l r path,
  (i < length cur <= fuel)%nat -> ~ (l <> None /\ r <> None) ->
  path_loop fuel (pre ++ cur ++ concat (tower fuel sorted cur)) (length cur) (length pre) i l r path =
  Ok (path ++ (match l, r with None, None => [] | _, _ => [mkEntry (kid cur i) l r] end) ++
      branch fuel sorted cur i).
Proof.
  induction fuel as [|fuel IH]; intros pre cur i l r path Hi Hlr; [lia|].
  cbn [path_loop]. destruct (Nat.eqb_spec (length cur) 0); [lia|].
  assert (Hlen : (length pre + length cur <=? length (pre ++ cur ++ concat (tower (S fuel) sorted cur)))%nat = true).
  { apply Nat.leb_le. rewrite !app_length. lia. }
  rewrite Hlen. cbn [require rbind].
  replace (take (length cur) (drop (length pre) (pre ++ cur ++ concat (tower (S fuel) sorted cur))))
    with cur by (rewrite drop_app, take_app; reflexivity).
  assert (Hat : forall j, (j < length cur)%nat -> at_ cur j = Ok (kid cur j)).
  { intros j Hj. unfold at_, kid. destruct (lookup_lt_is_Some_2 cur j Hj) as (x & Hx). rewrite !Hx. reflexivity. }
  rewrite (Hat i) by lia. cbn [rbind].
  set (here := match l, r with None, None => [] | _, _ => [mkEntry (kid cur i) l r] end).
  assert (Hpath : match l, r with
      | None, None => Ok path
      | _, _ => let* e := entry_new (kid cur i) l r in Ok (path ++ [e])
      end = Ok (path ++ here)).
  { unfold here. destruct l, r; cbn; try reflexivity.
    - exfalso. apply Hlr. split; discriminate.
    - rewrite app_nil_r. reflexivity. }
  rewrite Hpath. cbn [rbind].
  assert (Hsib : (if (i mod 2 =? 0)%nat then
          if (i + 1 <? length cur)%nat then
            let* r := at_ cur (i + 1) in Ok (None, Some r)
          else Ok (None, Some (kid cur i))
        else let* l := at_ cur (i - 1) in Ok (Some l, None)) = Ok (lsib cur i, rsib cur i)).
  { unfold lsib, rsib. destruct (i mod 2 =? 0)%nat eqn:Em.
    - destruct (Nat.ltb_spec (i + 1) (length cur)); rewrite ?Hat by lia; reflexivity.
    - rewrite Hat by lia. reflexivity. }
  rewrite Hsib. cbn [rbind]. cbn [tower branch].
  destruct (next_level_len (length cur) =? 0)%nat eqn:E.
  - apply Nat.eqb_eq in E. rewrite E. destruct fuel; cbn; rewrite app_nil_r; reflexivity.
  - apply Nat.eqb_neq in E.
    assert (H2 : (2 <= length cur)%nat).
    { destruct (Nat.eq_dec (length cur) 1) as [H1|]; [rewrite H1 in E; cbn in E; lia|lia]. }
    pose proof (next_len_lt (length cur)). pose proof (next_len_half (length cur) i).
    specialize (IH (pre ++ cur) (up sorted cur) (i / 2)%nat (lsib cur i) (rsib cur i) (path ++ here)).
    rewrite app_length, up_length, <- app_assoc in IH. cbn [concat]. rewrite IH; [|lia|].
    2: { unfold lsib, rsib. destruct (i mod 2 =? 0)%nat; intros [? ?]; congruence. }
    rewrite <- !app_assoc. f_equal. f_equal. f_equal.
    unfold lsib, rsib. destruct (i mod 2 =? 0)%nat; reflexivity.
Qed.

Lemma find_path_branch items sorted i : (i < length items)%nat ->
  find_path (mkTree (length items) (all_nodes sorted items)) i =
  Ok (Some (branch (length items) sorted (leaves items) i)).
Proof.
  intros Hi. unfold find_path. cbn [t_leaf_count t_nodes].
  destruct (Nat.leb_spec (length items) i); [lia|].
  unfold all_nodes.
  pose proof (path_loop_branch sorted (length items) [] (leaves items) i None None []) as Hp.
  rewrite leaves_length in Hp. cbn [app length] in Hp. rewrite Hp; [reflexivity|lia|].
  intros [Hn _]. apply Hn. reflexivity.
Qed.

Fixpoint sibs (fuel : nat) (sorted : bool) (cur : list bytes) (i : nat) : list bytes :=
  match fuel with
  | O => []
  | S fuel => if (next_level_len (length cur) =? 0)%nat then []
              else sib cur i :: sibs fuel sorted (up sorted cur) (i / 2)
  end.

Lemma siblings_branch sorted : forall fuel cur i,
  siblings (branch fuel sorted cur i) = Ok (sibs fuel sorted cur i).
Proof.
  induction fuel as [|fuel IH]; intros cur i; cbn [branch sibs]; [reflexivity|].
  destruct (next_level_len (length cur) =? 0)%nat; [reflexivity|].
  cbn [siblings q_left q_right]. unfold lsib, rsib, sib.
  destruct (i mod 2 =? 0)%nat; cbn [rbind]; rewrite IH; reflexivity.
Qed.

Lemma get_proof_sibs items sorted i : (i < length items)%nat ->
  get_proof (mkTree (length items) (all_nodes sorted items)) i =
  Ok (sibs (length items) sorted (leaves items) i).
Proof.
  intros Hi. unfold get_proof. rewrite find_path_branch by exact Hi. cbn [rbind ok_or].
  apply siblings_branch.
Qed.

(** * One step up *)

Lemma bytes_le_refl a : bytes_le a a = true.
Proof. induction a as [|x a IH]; cbn; [reflexivity|]. rewrite Z.ltb_irrefl. exact IH. Qed.
Lemma bytes_le_total a : forall b, bytes_le a b = false -> bytes_le b a = true.
Proof.
  induction a as [|x a IH]; intros [|y b]; cbn; try discriminate; try reflexivity.
  destruct (Z.ltb_spec x y); [discriminate|]. destruct (Z.ltb_spec y x); [reflexivity|]. apply IH.
Qed.
Lemma bytes_le_antisym a : forall b, bytes_le a b = true -> bytes_le b a = true -> a = b.
Proof.
  induction a as [|x a IH]; intros [|y b]; cbn; try discriminate; try reflexivity.
  destruct (Z.ltb_spec x y); destruct (Z.ltb_spec y x); try lia; try discriminate.
  intros Hab Hba. f_equal; [lia|]. apply IH; assumption.
Qed.

Lemma verify_step_sym a b : verify_step a b = verify_step b a.
Proof.
  unfold verify_step. destruct (bytes_le a b) eqn:E1, (bytes_le b a) eqn:E2; try reflexivity.
  - rewrite (bytes_le_antisym a b E1 E2). reflexivity.
  - pose proof (bytes_le_total a b E1). congruence.
Qed.

Lemma kid_up sorted cur i : (i < next_level_len (length cur))%nat ->
  kid (up sorted cur) i = hashv (par_in sorted cur i).
Proof.
  intros Hi. unfold kid, up, ins. rewrite map_map, (list_lookup_fmap (A:=nat) (B:=bytes)).
  rewrite lookup_seq_lt by exact Hi. reflexivity.
Qed.

Lemma verify_step_up cur i : (2 <= length cur)%nat -> (i < length cur)%nat ->
  verify_step (kid cur i) (sib cur i) = kid (up true cur) (i / 2).
Proof.
  intros H2 Hi. rewrite kid_up by (apply next_len_half; lia).
  assert (Hv : forall l r, hashv (if true && negb (bytes_le l r) then [1] ++ r ++ l else [1] ++ l ++ r)
                           = verify_step l r).
  { intros l r. unfold verify_step. destruct (bytes_le l r); reflexivity. }
  unfold par_in. rewrite Hv. unfold sib. destruct (i mod 2 =? 0)%nat eqn:E.
  - apply Nat.eqb_eq in E. replace (2 * (i / 2))%nat with i by lia. reflexivity.
  - apply Nat.eqb_neq in E. replace (2 * (i / 2))%nat with (i - 1)%nat by lia.
    replace (i - 1 + 1)%nat with i by lia.
    destruct (Nat.ltb_spec i (length cur)); [|lia]. apply verify_step_sym.
Qed.

Lemma climb : forall fuel cur i, (i < length cur <= fuel)%nat ->
  foldl verify_step (kid cur i) (sibs fuel true cur i) = top fuel true cur.
Proof.
  induction fuel as [|fuel IH]; intros cur i Hi; [lia|]. cbn [sibs top].
  destruct (next_level_len (length cur) =? 0)%nat eqn:E.
  - apply Nat.eqb_eq in E. cbn.
    destruct (Nat.le_gt_cases 2 (length cur)) as [H2|H2].
    + pose proof (next_len_pos (length cur) H2). lia.
    + replace i with 0%nat by lia. reflexivity.
  - apply Nat.eqb_neq in E. cbn [foldl].
    assert (H2 : (2 <= length cur)%nat).
    { destruct (Nat.eq_dec (length cur) 1) as [H1|]; [rewrite H1 in E; cbn in E; lia|lia]. }
    rewrite verify_step_up by lia.
    pose proof (next_len_lt (length cur)). pose proof (next_len_half (length cur) i).
    apply IH. rewrite up_length. lia.
Qed.

(** [Proof::verify] of an unsorted tree ("hashing for solana internals"). *)
Lemma path_verify_branch : forall fuel cur i, (i < length cur <= fuel)%nat ->
  path_verify (branch fuel false cur i) (kid cur i) = true.
Proof.
  induction fuel as [|fuel IH]; intros cur i Hi; [lia|]. cbn [branch].
  destruct (next_level_len (length cur) =? 0)%nat eqn:E; [reflexivity|].
  apply Nat.eqb_neq in E.
  assert (H2 : (2 <= length cur)%nat).
  { destruct (Nat.eq_dec (length cur) 1) as [H1|]; [rewrite H1 in E; cbn in E; lia|lia]. }
  pose proof (next_len_lt (length cur)). pose proof (next_len_half (length cur) i).
  cbn [path_verify q_left q_right q_target].
  assert (Hh : hash_intermediate (default (kid cur i) (lsib cur i)) (default (kid cur i) (rsib cur i))
               = kid (up false cur) (i / 2)).
  { rewrite kid_up by lia. unfold par_in, hash_intermediate, lsib, rsib. cbn [andb].
    destruct (i mod 2 =? 0)%nat eqn:Em; cbn [default].
    - apply Nat.eqb_eq in Em. replace (2 * (i / 2))%nat with i by lia. reflexivity.
    - apply Nat.eqb_neq in Em. replace (2 * (i / 2))%nat with (i - 1)%nat by lia.
      replace (i - 1 + 1)%nat with i by lia.
      destruct (Nat.ltb_spec i (length cur)); [reflexivity|lia]. }
  rewrite Hh. rewrite bool_decide_true by reflexivity. apply IH. rewrite up_length. lia.
Qed.


(** * Specification *)

(** The entry [n] of the list [l] that counts for its owner: the last one naming that owner. *)
Definition last_entry (l : list tnode) (n : tnode) : Prop :=
  exists pre post, l = pre ++ n :: post /\ forall m, m ∈ post -> n_owner m <> n_owner n.

(** Machine integers of a [TreeNode]: a [u8] and a [u64]. *)
Definition typed (n : tnode) : Prop := 0 <= n_idx n <= U8MAX /\ 0 <= n_cap n <= U64MAX.

(** Sizes of hashes and keys: 32 bytes. *)
Definition sized : Prop :=
  (forall x, is_hash (hashv x) = true) /\ (forall a, length (addr_bytes a) = 32%nat).

(** What the on-chain verifier hashes for an entry and a proof. *)
Definition entry_bytes (owner : addr) (idx cap : Z) : bytes :=
  addr_bytes owner ++ le_bytes 1 idx ++ le_bytes 8 cap.
Definition join (v e : bytes) : bytes := 1 :: (if bytes_le v e then v ++ e else e ++ v).
Fixpoint joins (v : bytes) (proof : list bytes) : list bytes :=
  match proof with
  | [] => []
  | e :: proof => join v e :: joins (hashv (join v e)) proof
  end.
Definition verifier_inputs (owner : addr) (idx cap : Z) (proof : list bytes) : list bytes :=
  let b := entry_bytes owner idx cap in
  b :: (0 :: hashv b) :: joins (hashv (0 :: hashv b)) proof.

(** What the builder hashes for the nodes [ns]. *)
Definition node_bytes (n : tnode) : bytes := entry_bytes (n_owner n) (n_idx n) (n_cap n).
Definition builder_inputs (ns : list tnode) : list bytes :=
  let first := map (fun n => 0 :: hashv (node_bytes n)) ns in
  map node_bytes ns ++ first ++ tower_ins (length ns) true (map hashv first).

(** Two different strings with the same hash, one hashed by the verifier, one by the builder. *)
Definition collision (vs bs : list bytes) : Prop :=
  exists x y, x ∈ vs /\ y ∈ bs /\ x <> y /\ hashv x = hashv y.

(** * The list of nodes kept *)

Lemma index_insert_owner m n x : x ∈ index_insert m n -> x = n \/ (x ∈ m /\ (NoDup (map n_owner m) -> n_owner x <> n_owner n)).
Proof.
  induction m as [|y m IH]; cbn [index_insert].
  - intros Hx. apply elem_of_list_singleton in Hx. auto.
  - destruct (beq_addr (n_owner y) (n_owner n)) eqn:E.
    + unfold beq_addr in E. apply bool_decide_eq_true in E.
      intros Hx. apply elem_of_cons in Hx as [->|Hx]; [auto|]. right. split; [right; exact Hx|].
      cbn [map]. intros Hd. apply list.NoDup_cons in Hd as [Hn _]. rewrite <- E. intros He. apply Hn.
      rewrite <- He. apply elem_of_list_fmap. eauto.
    + unfold beq_addr in E. apply bool_decide_eq_false in E.
      intros Hx. apply elem_of_cons in Hx as [->|Hx].
      * right. split; [left|auto].
      * destruct (IH Hx) as [->|[Hm Hne]]; [auto|]. right. split; [right; exact Hm|].
        intros Hd. apply Hne. apply list.NoDup_cons in Hd as [_ Hd]. exact Hd.
Qed.
Lemma index_insert_in m n : n ∈ index_insert m n.
Proof.
  induction m as [|y m IH]; cbn [index_insert]; [left|].
  destruct (beq_addr _ _); [left|right; exact IH].
Qed.
Lemma index_insert_keep m n x : x ∈ m -> n_owner x <> n_owner n -> x ∈ index_insert m n.
Proof.
  induction m as [|y m IH]; cbn [index_insert]; intros Hx Hne; [apply elem_of_nil in Hx; contradiction|].
  destruct (beq_addr (n_owner y) (n_owner n)) eqn:E.
  - unfold beq_addr in E. apply bool_decide_eq_true in E.
    apply elem_of_cons in Hx as [->|Hx]; [congruence|right; exact Hx].
  - apply elem_of_cons in Hx as [->|Hx]; [left|right; auto].
Qed.
Lemma index_insert_nodup m n : NoDup (map n_owner m) -> NoDup (map n_owner (index_insert m n)).
Proof.
  induction m as [|y m IH]; cbn [index_insert map]; intros Hd.
  { apply list.NoDup_cons. split; [apply not_elem_of_nil|apply list.NoDup_nil; exact I]. }
  pose proof Hd as Hall. apply list.NoDup_cons in Hd as [Hy Hd].
  destruct (beq_addr (n_owner y) (n_owner n)) eqn:E; unfold beq_addr in E; cbn [map].
  - apply bool_decide_eq_true in E. rewrite <- E. exact Hall.
  - apply bool_decide_eq_false in E. apply list.NoDup_cons. split; [|auto].
    intros Hin. apply elem_of_list_fmap in Hin as (z & Hz & Hin).
    destruct (index_insert_owner _ _ _ Hin) as [->|[Hm _]]; [congruence|].
    apply Hy. rewrite Hz. apply elem_of_list_fmap. eauto.
Qed.

Lemma combine_snoc l n : combine_nodes (l ++ [n]) = index_insert (combine_nodes l) n.
Proof. unfold combine_nodes. rewrite foldl_app. reflexivity. Qed.
Lemma combine_nodup l : NoDup (map n_owner (combine_nodes l)).
Proof.
  induction l as [|n l IH] using rev_ind; [apply list.NoDup_nil; exact I|].
  rewrite combine_snoc. apply index_insert_nodup. exact IH.
Qed.

Lemma combine_last l n : n ∈ combine_nodes l <-> last_entry l n.
Proof.
  induction l as [|x l IH] using rev_ind.
  { split; [intros Hn; apply elem_of_nil in Hn; contradiction|].
    intros (pre & post & He & _). destruct pre; discriminate. }
  rewrite combine_snoc. split.
  - intros Hn. destruct (index_insert_owner _ _ _ Hn) as [->|[Hm Hne]].
    + exists l, []. split; [reflexivity|]. intros m Hm. apply elem_of_nil in Hm. contradiction.
    + specialize (Hne (combine_nodup l)). apply IH in Hm as (pre & post & -> & Hp).
      exists pre, (post ++ [x]). split; [rewrite <- app_assoc; reflexivity|].
      intros m Hin. apply elem_of_app in Hin as [Hin|Hin]; [auto|].
      apply elem_of_list_singleton in Hin. subst. auto.
  - intros (pre & post & He & Hp). destruct post as [|y post] using rev_ind.
    + apply app_inj_tail in He as [-> ->]. apply index_insert_in.
    + clear IHpost. rewrite app_comm_cons, app_assoc in He. apply app_inj_tail in He as [-> ->].
      apply index_insert_keep.
      * apply IH. exists pre, post. split; [reflexivity|]. intros m Hm. apply Hp. apply elem_of_app. auto.
      * intros Ho. apply (Hp y); [apply elem_of_app; right; left|congruence].
Qed.

Lemma combine_nonempty l : l <> [] -> combine_nodes l <> [].
Proof.
  destruct l as [|x l] using rev_ind; [congruence|]. intros _. rewrite combine_snoc.
  pose proof (index_insert_in (combine_nodes l) x) as Hin. intros He. rewrite He in Hin.
  apply elem_of_nil in Hin. contradiction.
Qed.
Lemma combine_length l : (length (combine_nodes l) <= length l)%nat.
Proof.
  induction l as [|x l IH] using rev_ind; [reflexivity|]. rewrite combine_snoc, app_length. cbn.
  enough (forall m, length (index_insert m x) <= S (length m))%nat by (specialize (H0 (combine_nodes l)); lia).
  induction m as [|y m IHm]; cbn [index_insert length]; [lia|]. destruct (beq_addr _ _); cbn; lia.
Qed.

(** * The tree of a whitelist *)

Definition proof_of (ns : list tnode) (i : nat) : list bytes :=
  sibs (length ns) true (leaves (map node_hash ns)) i.
Definition root_of (ns : list tnode) : bytes := top (length ns) true (leaves (map node_hash ns)).
Definition proved (ns : list tnode) (i : nat) (n : tnode) : tnode :=
  mkNode (n_owner n) (n_idx n) (n_cap n) (Some (proof_of ns i)).
Definition tree_of (ns : list tnode) : mtree :=
  mkTree (length (map node_hash ns)) (all_nodes true (map node_hash ns)).

Lemma tree_of_new ns : tree_new (map node_hash ns) true = Ok (tree_of ns).
Proof. apply tree_new_nodes. Qed.
Lemma tree_of_root ns : ns <> [] -> get_root (tree_of ns) = Some (root_of ns).
Proof.
  intros Hne. unfold tree_of, root_of.
  rewrite get_root_top by (destruct ns; [congruence|discriminate]). rewrite map_length. reflexivity.
Qed.
Lemma tree_of_proof ns i : (i < length ns)%nat -> get_proof (tree_of ns) i = Ok (proof_of ns i).
Proof.
  intros Hi. unfold tree_of, proof_of. rewrite get_proof_sibs by (rewrite map_length; exact Hi).
  rewrite map_length. reflexivity.
Qed.

Lemma with_proofs_all ns : forall l i, (i + length l <= length ns)%nat ->
  with_proofs (tree_of ns) i l = Ok (imap (fun j => proved ns (i + j)) l).
Proof.
  induction l as [|n l IH]; intros i Hi; cbn [with_proofs imap]; [reflexivity|].
  cbn [length] in Hi. rewrite tree_of_proof by lia. cbn [rbind]. rewrite IH by lia. cbn [rbind].
  rewrite Nat.add_0_r. unfold proved at 1. f_equal. f_equal. apply imap_ext. intros j x _.
  cbn. rewrite Nat.add_succ_r. reflexivity.
Qed.

Lemma leaf_verifies ns i n : ns !! i = Some n ->
  merkle_verify (proof_of ns i) (root_of ns) (merkle_leaf (n_owner n) (n_idx n) (n_cap n)) = true.
Proof.
  intros Hn. unfold merkle_verify. apply bool_decide_eq_true. unfold proof_of, root_of.
  rewrite <- (climb (length ns) (leaves (map node_hash ns)) i).
  2: { rewrite leaves_length, map_length. apply lookup_lt_Some in Hn. lia. }
  f_equal. unfold kid, leaves. rewrite map_map.
  rewrite (list_lookup_fmap (A:=tnode) (B:=bytes)), Hn. reflexivity.
Qed.

Lemma verify_nodes_ok ns : forall l i, drop i ns = l ->
  verify_nodes (tree_of ns) (root_of ns) i (map node_hash l) = Ok tt.
Proof.
  induction l as [|n l IH]; intros i Hd; cbn [verify_nodes map]; [reflexivity|].
  assert (Hn : ns !! i = Some n).
  { pose proof (lookup_drop ns i 0) as Hl. rewrite Hd, Nat.add_0_r in Hl. cbn in Hl. auto. }
  rewrite tree_of_proof by (apply lookup_lt_Some in Hn; exact Hn). cbn [rbind].
  pose proof (leaf_verifies ns i n Hn) as Hv. unfold merkle_leaf in Hv. fold (node_hash n) in Hv.
  rewrite Hv. cbn [require rbind]. apply IH.
  rewrite <- Nat.add_1_r, <- drop_drop, Hd. reflexivity.
Qed.

Lemma map_proved ns l i : map node_hash (imap (fun j => proved ns (i + j)) l) = map node_hash l.
Proof.
  revert i. induction l as [|n l IH]; intros i; cbn; [reflexivity|]. f_equal.
  rewrite <- (IH (S i)). f_equal. apply imap_ext. intros j x _. cbn. rewrite Nat.add_succ_r. reflexivity.
Qed.
Lemma owners_proved ns l i : map n_owner (imap (fun j => proved ns (i + j)) l) = map n_owner l.
Proof.
  revert i. induction l as [|n l IH]; intros i; cbn; [reflexivity|]. f_equal.
  rewrite <- (IH (S i)). f_equal. apply imap_ext. intros j x _. cbn. rewrite Nat.add_succ_r. reflexivity.
Qed.

Definition built (ns : list tnode) (version : Z) : cmtree :=
  mkConf (root_of ns) version (Z.of_nat (length ns)) (imap (proved ns) ns).

Lemma nodup_length {A} `{EqDecision A} (l : list A) : NoDup l -> remove_dups l = l.
Proof.
  induction l as [|x l IH]; intros Hd; cbn; [reflexivity|]. apply list.NoDup_cons in Hd as [Hx Hd].
  destruct (decide_rel _ x l); [contradiction|]. f_equal. auto.
Qed.

Lemma validate_built ns version : ns <> [] -> NoDup (map n_owner ns) ->
  Z.of_nat (length ns) <= 2 ^ 32 - 1 -> validate (built ns version) = Ok tt.
Proof.
  intros Hne Hd Hlen. unfold validate, built. cbn [m_max_num_nodes m_tree_nodes m_root].
  assert (Hi : imap (proved ns) ns = imap (fun j => proved ns (0 + j)) ns) by (apply imap_ext; reflexivity).
  rewrite (proj2 (Z.leb_le _ _) Hlen). cbn [require rbind].
  rewrite imap_length, Z.eqb_refl. cbn [require rbind].
  rewrite Hi, owners_proved, nodup_length by exact Hd.
  rewrite map_length, Nat.eqb_refl. cbn [require rbind].
  unfold verify_proof. cbn [m_tree_nodes m_root]. rewrite map_proved, tree_of_new. cbn [rbind].
  rewrite tree_of_root by exact Hne. cbn [ok_or rbind].
  rewrite bool_decide_true by reflexivity. cbn [require rbind].
  rewrite verify_nodes_ok by reflexivity. reflexivity.
Qed.

Lemma config_new_built l version : l <> [] ->
  Z.of_nat (length (combine_nodes l)) <= 2 ^ 32 - 1 ->
  config_new l version = Ok (built (combine_nodes l) version).
Proof.
  intros Hne Hlen. set (ns := combine_nodes l) in *.
  assert (Hns : ns <> []) by (apply combine_nonempty; exact Hne).
  unfold config_new. fold ns. rewrite tree_of_new. cbn [rbind].
  rewrite with_proofs_all by lia. cbn [rbind].
  rewrite tree_of_root by exact Hns. cbn [ok_or rbind].
  assert (Hi : imap (fun j => proved ns (0 + j)) ns = imap (proved ns) ns) by (apply imap_ext; reflexivity).
  rewrite Hi, imap_length. fold (built ns version).
  rewrite validate_built; [reflexivity|exact Hns|apply combine_nodup|exact Hlen].
Qed.

Lemma config_new_inv l version c : config_new l version = Ok c ->
  l <> [] /\ c = built (combine_nodes l) version /\ Z.of_nat (length (combine_nodes l)) <= 2 ^ 32 - 1.
Proof.
  intros Hc. assert (Hne : l <> []) by (intros ->; discriminate). split; [exact Hne|].
  destruct (Z.le_gt_cases (Z.of_nat (length (combine_nodes l))) (2 ^ 32 - 1)) as [Hle|Hgt].
  - rewrite config_new_built in Hc by assumption. split; [congruence|exact Hle].
  - exfalso. set (ns := combine_nodes l) in *.
    assert (Hns : ns <> []) by (apply combine_nonempty; exact Hne).
    unfold config_new in Hc. fold ns in Hc. rewrite tree_of_new in Hc. cbn [rbind] in Hc.
    rewrite with_proofs_all in Hc by lia. cbn [rbind] in Hc.
    rewrite tree_of_root in Hc by exact Hns. cbn [ok_or rbind] in Hc.
    unfold validate in Hc. cbn [m_max_num_nodes] in Hc. rewrite imap_length in Hc.
    destruct (Z.leb_spec (Z.of_nat (length ns)) (2 ^ 32 - 1)); [lia|]. discriminate.
Qed.

Lemma built_node ns version m : m ∈ m_tree_nodes (built ns version) <->
  exists i n, ns !! i = Some n /\ m = proved ns i n.
Proof.
  cbn. rewrite elem_of_lookup_imap. split; intros (i & n & A & B); exists i, n; auto.
Qed.

(** * C28 *)

(** The builder accepts every non-empty list with fewer than 2^32 owners. *)
Theorem C28_builder_total l version :
  l <> [] -> Z.of_nat (length l) <= 2 ^ 32 - 1 ->
  exists c, config_new l version = Ok c /\ m_version c = version.
Proof.
  intros Hne Hlen. exists (built (combine_nodes l) version). split; [|reflexivity].
  apply config_new_built; [exact Hne|]. pose proof (combine_length l). lia.
Qed.

(** It keeps exactly the last entry of every owner, each with a proof that the on-chain verifier
    accepts against the root it publishes. *)
Theorem C28_every_entry_proved l version c owner idx cap :
  config_new l version = Ok c ->
  (exists pf, last_entry l (mkNode owner idx cap pf)) <->
  (exists proof, mkNode owner idx cap (Some proof) ∈ m_tree_nodes c /\
     merkle_verify proof (m_root c) (merkle_leaf owner idx cap) = true).
Proof.
  intros Hc. apply config_new_inv in Hc as (Hne & -> & Hlen). split.
  - intros (pf & Hl). apply combine_last in Hl. apply elem_of_list_lookup in Hl as (i & Hi).
    exists (proof_of (combine_nodes l) i). split.
    + apply built_node. eauto.
    + exact (leaf_verifies _ _ _ Hi).
  - intros (proof & Hin & _). apply built_node in Hin as (i & [o ix cp pf] & Hi & He).
    injection He as -> -> -> _. exists pf. apply combine_last. apply elem_of_list_lookup. eauto.
Qed.
Theorem C28_no_other_nodes l version c m :
  config_new l version = Ok c -> m ∈ m_tree_nodes c ->
  exists proof, n_proof m = Some proof /\
    merkle_verify proof (m_root c) (merkle_leaf (n_owner m) (n_idx m) (n_cap m)) = true.
Proof.
  intros Hc Hm. apply config_new_inv in Hc as (Hne & -> & Hlen).
  apply built_node in Hm as (i & n & Hi & ->). cbn. eexists. split; [reflexivity|].
  exact (leaf_verifies _ _ _ Hi).
Qed.
(** Looking an owner up in the built tree finds the last entry naming them. *)
Theorem C28_lookup l version c owner :
  config_new l version = Ok c ->
  (exists n, n ∈ l /\ n_owner n = owner) ->
  exists m pf, get_node c owner = Ok m /\ last_entry l (mkNode owner (n_idx m) (n_cap m) pf) /\
    n_owner m = owner.
Proof.
  intros Hc (n & Hn & Ho). apply config_new_inv in Hc as (Hne & -> & Hlen).
  assert (Hex : exists x, x ∈ combine_nodes l /\ n_owner x = owner).
  { clear Hlen Hne. revert Hn. induction l as [|y l IH] using rev_ind; intros Hn.
    - apply elem_of_nil in Hn. contradiction.
    - rewrite combine_snoc. destruct (decide (n_owner y = owner)) as [Hy|Hy].
      + exists y. split; [apply index_insert_in|exact Hy].
      + apply elem_of_app in Hn as [Hn|Hn].
        * destruct (IH Hn) as (x & Hx & Hxo). exists x. split; [|exact Hxo].
          apply index_insert_keep; [exact Hx|congruence].
        * apply elem_of_list_singleton in Hn. congruence. }
  destruct Hex as (x & Hx & Hxo). apply elem_of_list_lookup in Hx as (i & Hi).
  unfold get_node.
  destruct (List.find (fun n0 => beq_addr (n_owner n0) owner) (m_tree_nodes (built (combine_nodes l) version)))
    as [m|] eqn:Hf.
  - apply find_some in Hf as [Hin Hb]. unfold beq_addr in Hb. apply bool_decide_eq_true in Hb.
    apply elem_of_list_In in Hin. apply built_node in Hin as (j & [o ix cp pf] & Hj & ->). cbn in Hb. subst o.
    eexists _, pf. split; [reflexivity|]. cbn. split; [|reflexivity].
    apply combine_last. apply elem_of_list_lookup. eauto.
  - exfalso. assert (Hin : In (proved (combine_nodes l) i x) (m_tree_nodes (built (combine_nodes l) version))).
    { apply elem_of_list_In. apply built_node. eauto. }
    pose proof (find_none _ _ Hf _ Hin) as Hb. cbn in Hb. unfold beq_addr in Hb.
    apply bool_decide_eq_false in Hb. congruence.
Qed.

(** The tree's own path check, for trees built without sorting the siblings. *)
Theorem C28_paths_verify (items : list bytes) (i : nat) (x : bytes) :
  items !! i = Some x ->
  exists t p, tree_new items false = Ok t /\ find_path t i = Ok (Some p) /\
    path_verify p (hashv (0 :: x)) = true.
Proof.
  intros Hx. pose proof (lookup_lt_Some _ _ _ Hx) as Hi.
  exists (mkTree (length items) (all_nodes false items)), (branch (length items) false (leaves items) i).
  split; [apply tree_new_nodes|]. split; [apply find_path_branch; exact Hi|].
  pose proof (path_verify_branch (length items) (leaves items) i) as Hp.
  rewrite leaves_length in Hp. specialize (Hp (conj Hi (Nat.le_refl _))).
  assert (Hk : kid (leaves items) i = hashv (0 :: x)).
  { unfold kid, leaves. rewrite (list_lookup_fmap (A:=bytes) (B:=bytes)), Hx. reflexivity. }
  rewrite Hk in Hp. exact Hp.
Qed.


(** * Escrows of whitelisted owners *)

(** When an escrow for (owner, index, cap) can be created. *)
Record creatable (w : world) (k owner : addr) (idx cap : Z) (p : presale) (r : registry) : Prop := {
  ct_presale : w_presales w !! k = Some p;
  ct_open : p_start p <= w_now w < p_end p;
  ct_idx : 0 <= idx < p_nreg p;
  ct_reg : p_regs p !! Z.to_nat idx = Some r;
  ct_cap : 0 < cap /\ r_min_cap r <= cap <= r_max_cap r;
  ct_new : w_escrows w !! PEscrow k owner idx = None;
  ct_room : r_escrows r < U64MAX /\ p_escrows p < U64MAX
}.

Lemma finish_create_ok w k owner idx cap p r :
  0 <= w_now w -> creatable w k owner idx cap p r ->
  exists w' l, finish_create_escrow w p k owner idx (Some cap) = Ok (w', l) /\
    w_escrows w' !! PEscrow k owner idx = Some (esc_init k owner (w_now w) idx cap).
Proof.
  intros Hn [Hp Ho Hi Hr [Hc0 Hc1] Hnew [Hre Hpe]].
  unfold finish_create_escrow. rewrite bool_decide_true by exact Hnew. cbn [require rbind].
  unfold process_create_escrow, clock, cast_i64_u64.
  destruct (Z.leb_spec 0 (w_now w)); [|lia]. cbn [rbind].
  assert (Hg : beq_progress (get_progress p (w_now w)) Ongoing = true).
  { rewrite (proj2 (progress_ongoing p (w_now w)) Ho). reflexivity. }
  rewrite Hg. cbn [require rbind].
  destruct (Z.ltb_spec idx (p_nreg p)); [|lia]. cbn [require rbind].
  rewrite (proj2 (get_reg_Ok p idx r) Hr). cbn [rbind].
  destruct (Z.ltb_spec 0 cap); [|lia]. cbn [require rbind].
  destruct (Z.leb_spec (r_min_cap r) cap); [|lia].
  destruct (Z.leb_spec cap (r_max_cap r)); [|lia]. cbn [andb require rbind].
  unfold presale_inc_escrow, reg_inc_escrow. rewrite (proj2 (get_reg_Ok p idx r) Hr). cbn [rbind].
  unfold safe_add.
  destruct (Z.leb_spec (r_escrows r + 1) U64MAX); [|lia]. cbn [rbind].
  destruct (Z.leb_spec (p_escrows p + 1) U64MAX); [|lia]. cbn [rbind].
  eexists _, _. split; [reflexivity|]. cbn. apply lookup_insert.
Qed.

Lemma top_hash sorted : sized -> forall fuel cur, (0 < length cur)%nat ->
  Forall (fun b => is_hash b = true) cur -> is_hash (top fuel sorted cur) = true.
Proof.
  intros [Hh _]. induction fuel as [|fuel IH]; intros cur H0 Hc; cbn [top].
  - unfold kid. destruct (lookup_lt_is_Some_2 cur 0 H0) as (x & Hx). rewrite Hx.
    exact (Forall_lookup_1 _ _ _ _ Hc Hx).
  - destruct (next_level_len (length cur) =? 0)%nat eqn:E.
    + unfold kid. destruct (lookup_lt_is_Some_2 cur 0 H0) as (x & Hx). rewrite Hx.
      exact (Forall_lookup_1 _ _ _ _ Hc Hx).
    + apply Nat.eqb_neq in E. apply IH; [rewrite up_length; lia|].
      unfold up. apply Forall_fmap. apply Forall_forall. intros x _. apply Hh.
Qed.
Lemma sibs_hash sorted : sized -> forall fuel cur i, (i < length cur)%nat ->
  Forall (fun b => is_hash b = true) cur -> forallb is_hash (sibs fuel sorted cur i) = true.
Proof.
  intros [Hh Ha]. induction fuel as [|fuel IH]; intros cur i Hi Hc; cbn [sibs]; [reflexivity|].
  destruct (next_level_len (length cur) =? 0)%nat eqn:E; [reflexivity|]. apply Nat.eqb_neq in E.
  assert (H2 : (2 <= length cur)%nat).
  { destruct (Nat.eq_dec (length cur) 1) as [H1|]; [rewrite H1 in E; cbn in E; lia|lia]. }
  cbn [forallb]. apply andb_true_intro. split.
  - assert (Hk : forall j, (j < length cur)%nat -> is_hash (kid cur j) = true).
    { intros j Hj. unfold kid. destruct (lookup_lt_is_Some_2 cur j Hj) as (x & Hx). rewrite Hx.
      exact (Forall_lookup_1 _ _ _ _ Hc Hx). }
    unfold sib. destruct (i mod 2 =? 0)%nat.
    + destruct (Nat.ltb_spec (i + 1) (length cur)); apply Hk; lia.
    + apply Hk. lia.
  - apply IH.
    + rewrite up_length. apply next_len_half; lia.
    + unfold up. apply Forall_fmap. apply Forall_forall. intros x _. apply Hh.
Qed.
Lemma leaves_hash items : sized -> Forall (fun b => is_hash b = true) (leaves items).
Proof. intros [Hh _]. unfold leaves. apply Forall_fmap. apply Forall_forall. intros x _. apply Hh. Qed.

(** Publishing the root of the built tree is accepted by [create_merkle_root_config] ... *)
Theorem C28_root_published w k p l version c :
  sized -> reachable w -> config_new l version = Ok c -> 0 <= version <= U64MAX ->
  w_presales w !! k = Some p -> p_wl p = 1 -> w_now w < p_end p -> is_wallet (p_owner p) = true ->
  w_merkles w !! get_merkle_root_config_pubkey c k = None ->
  exists w' fx, step w (ICreateMerkle k (p_owner p) (m_root c) version) = Ok (w', fx) /\
    w_merkles w' !! get_merkle_root_config_pubkey c k = Some (mkMerkle (m_root c) k version).
Proof.
  intros Hsz Hw Hc Hv Hp Hwl Hnow Hown Hnew. pose proof (reachable_inv _ Hw) as Hi.
  pose proof (i_now _ Hi) as Hn0.
  apply config_new_inv in Hc as (Hne & -> & Hlen). cbn [m_root get_merkle_root_config_pubkey m_version built] in *.
  unfold get_merkle_root_config_pubkey in *. cbn [m_version built] in *.
  cbn [step]. unfold create_merkle_root_config.
  assert (Hroot : is_hash (root_of (combine_nodes l)) = true).
  { unfold root_of. apply top_hash; [exact Hsz| |apply leaves_hash; exact Hsz].
    rewrite leaves_length, map_length. pose proof (combine_nonempty l Hne).
    destruct (combine_nodes l); [congruence|cbn; lia]. }
  rewrite Hroot. rewrite (proj2 (in_u64_iff version) Hv). cbn [andb require rbind].
  unfold clock, cast_i64_u64. destruct (Z.leb_spec 0 (w_now w)); [|lia]. cbn [rbind].
  unfold get_presale. rewrite Hp. cbn [ok_or rbind].
  rewrite bool_decide_true by exact Hnew. cbn [require rbind].
  unfold signer. rewrite Hown. cbn [require rbind].
  unfold beq_addr. rewrite bool_decide_true by reflexivity. cbn [require rbind].
  assert (Hg : beq_progress (get_progress p (w_now w)) NotStarted || beq_progress (get_progress p (w_now w)) Ongoing = true).
  { unfold get_progress. destruct (w_now w <? p_start p) eqn:E1; [reflexivity|].
    destruct (Z.ltb_spec (w_now w) (p_end p)); [reflexivity|lia]. }
  rewrite Hg. cbn [require rbind]. rewrite Hwl. cbn.
  eexists _, _. split; [reflexivity|]. cbn. apply lookup_insert.
Qed.

(** ... and then everybody kept in the list can have their escrow created by whoever pays. *)
Theorem C28_escrow_created w k l version c owner idx cap pf p r mk payer :
  sized -> reachable w -> config_new l version = Ok c ->
  last_entry l (mkNode owner idx cap pf) -> 0 <= cap <= U64MAX ->
  w_merkles w !! mk = Some (mkMerkle (m_root c) k version) ->
  p_wl p = 1 -> is_wallet payer = true -> creatable w k owner idx cap p r ->
  exists proof w' fx, step w (IEscrowMerkle k owner mk payer proof idx cap) = Ok (w', fx) /\
    mkNode owner idx cap (Some proof) ∈ m_tree_nodes c /\
    w_escrows w' !! PEscrow k owner idx = Some (esc_init k owner (w_now w) idx cap).
Proof.
  intros Hsz Hw Hc Hl Hcap Hmk Hwl Hpay Hct. pose proof (reachable_inv _ Hw) as Hi.
  pose proof (i_now _ Hi) as Hn0.
  apply config_new_inv in Hc as (Hne & -> & Hlen).
  apply combine_last in Hl. apply elem_of_list_lookup in Hl as (i & Hn).
  pose proof (q_cfg _ _ _ (i_presales _ Hi _ _ (ct_presale _ _ _ _ _ _ _ Hct))) as Hcfg.
  exists (proof_of (combine_nodes l) i).
  destruct (finish_create_ok _ _ _ _ _ _ _ (proj1 Hn0) Hct) as (w' & fx & Hf & He).
  exists w', fx. split; [|split; [|exact He]].
  - cbn [step]. unfold create_permissioned_escrow_with_merkle_proof.
    assert (Hpr : forallb is_hash (proof_of (combine_nodes l) i) = true).
    { unfold proof_of. apply sibs_hash; [exact Hsz| |apply leaves_hash; exact Hsz].
      rewrite leaves_length, map_length. apply lookup_lt_Some in Hn. exact Hn. }
    assert (Hix : in_u8 idx = true).
    { destruct (ct_idx _ _ _ _ _ _ _ Hct) as [H1 H2]. pose proof (c_nreg _ _ Hcfg).
      unfold in_u8, U8MAX. destruct (Z.leb_spec 0 idx), (Z.leb_spec idx 255); try reflexivity; lia. }
    rewrite Hpr, Hix, (proj2 (in_u64_iff cap) Hcap). cbn [andb require rbind].
    unfold get_presale. rewrite (ct_presale _ _ _ _ _ _ _ Hct). cbn [ok_or rbind].
    rewrite Hmk. cbn [ok_or rbind k_presale k_root]. unfold has_one, beq_addr.
    rewrite bool_decide_true by reflexivity. cbn [require rbind].
    unfold signer. rewrite Hpay. cbn [require rbind]. rewrite Hwl.
    change (cast_wl 1) with (Ok WithMerkleProof). cbn [rbind].
    rewrite bool_decide_true by reflexivity. cbn [require rbind m_root built].
    rewrite (leaf_verifies _ _ _ Hn : merkle_verify _ _ (merkle_leaf owner idx cap) = true).
    cbn [require rbind]. exact Hf.
  - apply built_node. eauto.
Qed.

(** * C29 *)

Lemma par_in_kids cur i : (i < next_level_len (length cur))%nat ->
  exists l r, l ∈ cur /\ r ∈ cur /\ par_in true cur i = 1 :: l ++ r.
Proof.
  intros Hi. pose proof (next_len_kid _ _ Hi) as H2.
  assert (Hk : forall j, (j < length cur)%nat -> kid cur j ∈ cur).
  { intros j Hj. unfold kid. destruct (lookup_lt_is_Some_2 cur j Hj) as (x & Hx). rewrite Hx.
    eapply elem_of_list_lookup_2. exact Hx. }
  unfold par_in. cbn [andb].
  set (l := kid cur (2 * i)). set (r := if (2 * i + 1 <? length cur)%nat then kid cur (2 * i + 1) else l).
  assert (Hl : l ∈ cur) by (apply Hk; exact H2).
  assert (Hr : r ∈ cur).
  { unfold r. destruct (Nat.ltb_spec (2 * i + 1) (length cur)); [apply Hk; assumption|exact Hl]. }
  destruct (bytes_le l r); cbn [negb]; [exists l, r|exists r, l]; auto.
Qed.

Lemma tower_pre : forall fuel cur x, x ∈ concat (tower fuel true cur) ->
  exists l r, l ∈ cur ++ concat (tower fuel true cur) /\ r ∈ cur ++ concat (tower fuel true cur) /\
    x = hashv (1 :: l ++ r) /\ (1 :: l ++ r) ∈ tower_ins fuel true cur.
Proof.
  induction fuel as [|fuel IH]; intros cur x; cbn [tower tower_ins].
  { intros Hx. apply elem_of_nil in Hx. contradiction. }
  destruct (next_level_len (length cur) =? 0)%nat.
  { intros Hx. apply elem_of_nil in Hx. contradiction. }
  cbn [concat]. intros Hx. apply elem_of_app in Hx as [Hx|Hx].
  - unfold up in Hx. apply elem_of_list_fmap in Hx as (y & -> & Hy). pose proof Hy as Hin.
    unfold ins in Hy. apply elem_of_list_fmap in Hy as (i & -> & Hi). apply elem_of_seq in Hi.
    destruct (par_in_kids cur i) as (l & r & Hl & Hr & Hp); [lia|]. rewrite Hp in *.
    exists l, r. split; [apply elem_of_app; auto|]. split; [apply elem_of_app; auto|].
    split; [reflexivity|]. apply elem_of_app. auto.
  - destruct (IH _ _ Hx) as (l & r & Hl & Hr & -> & Hin). exists l, r.
    split; [apply elem_of_app; auto|]. split; [apply elem_of_app; auto|].
    split; [reflexivity|]. apply elem_of_app. auto.
Qed.

Lemma first_leaves ns :
  map hashv (map (fun n => 0 :: hashv (node_bytes n)) ns) = leaves (map node_hash ns).
Proof. unfold leaves. rewrite !map_map. reflexivity. Qed.

(** Every node of the tree is the hash of something the builder hashed. *)
Lemma node_pre ns x : x ∈ all_nodes true (map node_hash ns) ->
  (exists n, n ∈ ns /\ x = hashv (0 :: hashv (node_bytes n))) \/
  (exists l r, l ∈ all_nodes true (map node_hash ns) /\ r ∈ all_nodes true (map node_hash ns) /\
     x = hashv (1 :: l ++ r) /\ (1 :: l ++ r) ∈ builder_inputs ns).
Proof.
  unfold all_nodes at 1. intros Hx. apply elem_of_app in Hx as [Hx|Hx].
  - left. unfold leaves in Hx. apply elem_of_list_fmap in Hx as (h & -> & Hh).
    apply elem_of_list_fmap in Hh as (n & -> & Hn). exists n. auto.
  - right. destruct (tower_pre _ _ _ Hx) as (l & r & Hl & Hr & -> & Hin).
    exists l, r. split; [exact Hl|]. split; [exact Hr|]. split; [reflexivity|].
    unfold builder_inputs. apply elem_of_app. right. apply elem_of_app. right.
    rewrite first_leaves. rewrite map_length in Hin. exact Hin.
Qed.

Lemma verify_step_join v e : verify_step v e = hashv (join v e).
Proof. unfold verify_step, join. destruct (bytes_le v e); reflexivity. Qed.

Lemma same_or_collide vs bs x y : x ∈ vs -> y ∈ bs -> hashv x = hashv y -> x = y \/ collision vs bs.
Proof.
  intros Hx Hy Hh. destruct (decide (x = y)); [auto|]. right. exists x, y. auto.
Qed.
Lemma collision_mono vs vs' bs : (forall x, x ∈ vs -> x ∈ vs') -> collision vs bs -> collision vs' bs.
Proof. intros Hs (x & y & Hx & R). exists x, y. auto. Qed.

Lemma is_hash_length b : is_hash b = true -> length b = 32%nat.
Proof. unfold is_hash. intros Hb. apply andb_prop in Hb as [Hb _]. apply Z.eqb_eq in Hb. lia. Qed.

Lemma climb_down ns : sized -> forall proof v,
  length v = 32%nat -> forallb is_hash proof = true ->
  foldl verify_step v proof ∈ all_nodes true (map node_hash ns) ->
  v ∈ all_nodes true (map node_hash ns) \/ collision (joins v proof) (builder_inputs ns).
Proof.
  intros Hsz. induction proof as [|e proof IH]; intros v Hv Hp Hin; [auto|].
  cbn [foldl joins] in *. cbn [forallb] in Hp. apply andb_prop in Hp as [He Hp].
  rewrite verify_step_join in Hin.
  destruct (IH (hashv (join v e))) as [Hj|Hcol]; [apply is_hash_length, Hsz|exact Hp|exact Hin| |].
  2: { right. eapply collision_mono; [|exact Hcol]. intros x Hx. right. exact Hx. }
  assert (Hjin : join v e ∈ join v e :: joins (hashv (join v e)) proof) by left.
  destruct (node_pre _ _ Hj) as [(n & Hn & Heq)|(l & r & Hl & Hr & Heq & Hb)].
  - assert (Hb : (0 :: hashv (node_bytes n)) ∈ builder_inputs ns).
    { unfold builder_inputs. apply elem_of_app. right. apply elem_of_app. left.
      apply elem_of_list_fmap. eauto. }
    destruct (same_or_collide _ _ _ _ Hjin Hb Heq) as [Hsame|Hcol]; [discriminate|auto].
  - destruct (same_or_collide _ _ _ _ Hjin Hb Heq) as [Hsame|Hcol]; [|auto]. left.
    apply is_hash_length in He.
    assert (Hll : length l = 32%nat).
    { destruct (node_pre _ _ Hl) as [(n & _ & ->)|(a & b & _ & _ & -> & _)]; apply is_hash_length, Hsz. }
    unfold join in Hsame. injection Hsame as Hsame.
    destruct (bytes_le v e); apply app_inj_1 in Hsame as [-> ->]; auto; congruence.
Qed.

Lemma le_bytes_length n : forall z, length (le_bytes n z) = n.
Proof. induction n as [|n IH]; intros z; cbn; [reflexivity|]. rewrite IH. reflexivity. Qed.
Lemma le_bytes_inj n : forall x y, 0 <= x < 256 ^ Z.of_nat n -> 0 <= y < 256 ^ Z.of_nat n ->
  le_bytes n x = le_bytes n y -> x = y.
Proof.
  induction n as [|n IH]; intros x y Hx Hy Hl; cbn [le_bytes] in Hl.
  - cbn in *. lia.
  - injection Hl as Hm Hd. rewrite Nat2Z.inj_succ, Z.pow_succ_r in Hx, Hy by lia.
    apply IH in Hd; [|split; [apply Z.div_pos; lia|apply Z.div_lt_upper_bound; lia]..].
    rewrite (Z.div_mod x 256), (Z.div_mod y 256) by lia. congruence.
Qed.

Lemma entry_bytes_inj o1 i1 c1 o2 i2 c2 : sized ->
  0 <= i1 <= U8MAX -> 0 <= i2 <= U8MAX -> 0 <= c1 <= U64MAX -> 0 <= c2 <= U64MAX ->
  entry_bytes o1 i1 c1 = entry_bytes o2 i2 c2 -> addr_bytes o1 = addr_bytes o2 /\ i1 = i2 /\ c1 = c2.
Proof.
  intros [_ Ha] Hi1 Hi2 Hc1 Hc2 He. unfold entry_bytes in He.
  apply app_inj_1 in He as [Ho He]; [|rewrite !Ha; reflexivity].
  apply app_inj_1 in He as [Hi Hc]; [|rewrite !le_bytes_length; reflexivity].
  split; [exact Ho|]. unfold U8MAX, U64MAX in *.
  split; [eapply le_bytes_inj; [| |exact Hi]|eapply le_bytes_inj; [| |exact Hc]]; cbn; lia.
Qed.

(** Whatever the on-chain verifier accepts against a root of the builder is in the list, or the
    verifier and the builder have hashed two different strings to the same value. *)
Theorem C29_accepted_is_listed l version c owner idx cap proof :
  sized -> config_new l version = Ok c -> Forall typed l ->
  0 <= idx <= U8MAX -> 0 <= cap <= U64MAX -> forallb is_hash proof = true ->
  merkle_verify proof (m_root c) (merkle_leaf owner idx cap) = true ->
  (exists n, last_entry l n /\ addr_bytes (n_owner n) = addr_bytes owner /\ n_idx n = idx /\ n_cap n = cap) \/
  collision (verifier_inputs owner idx cap proof) (builder_inputs (m_tree_nodes c)).
Proof.
  intros Hsz Hc Hty Hi Hcap Hp Hv. apply config_new_inv in Hc as (Hne & -> & Hlen).
  set (ns := combine_nodes l) in *.
  assert (Hns : ns <> []) by (apply combine_nonempty; exact Hne).
  assert (Hbi : builder_inputs (m_tree_nodes (built ns version)) = builder_inputs ns).
  { cbn [m_tree_nodes built]. unfold builder_inputs.
    assert (Hnb : map node_bytes (imap (proved ns) ns) = map node_bytes ns).
    { generalize ns at 1. generalize ns. intros l0 l1. clear.
      apply list_eq. intros j. rewrite !list_lookup_fmap, list_lookup_imap.
      destruct (l0 !! j); reflexivity. }
    assert (Hnc : map (fun n => 0 :: hashv (node_bytes n)) (imap (proved ns) ns) =
                  map (fun n => 0 :: hashv (node_bytes n)) ns).
    { rewrite <- (map_map node_bytes (fun b => 0 :: hashv b)), Hnb, map_map. reflexivity. }
    rewrite Hnb, Hnc, imap_length. reflexivity. }
  rewrite Hbi. cbn [m_root built] in Hv. unfold merkle_verify in Hv. apply bool_decide_eq_true in Hv.
  set (b := entry_bytes owner idx cap).
  assert (Hlf : merkle_leaf owner idx cap = hashv (0 :: hashv b)) by reflexivity.
  rewrite Hlf in Hv.
  assert (Hroot : foldl verify_step (hashv (0 :: hashv b)) proof ∈ all_nodes true (map node_hash ns)).
  { rewrite Hv. pose proof (tree_of_root ns Hns) as Hr. unfold get_root, tree_of in Hr. cbn in Hr.
    apply last_Some in Hr as (pre & Hr). rewrite Hr. apply elem_of_app. right. left. }
  destruct (climb_down ns Hsz proof (hashv (0 :: hashv b))) as [Hin|Hcol];
    [apply is_hash_length, Hsz|exact Hp|exact Hroot| |].
  2: { right. eapply collision_mono; [|exact Hcol]. intros x Hx. unfold verifier_inputs. right. right. exact Hx. }
  assert (Hv2 : (0 :: hashv b) ∈ verifier_inputs owner idx cap proof) by (right; left).
  assert (Hv1 : b ∈ verifier_inputs owner idx cap proof) by left.
  destruct (node_pre _ _ Hin) as [(n & Hn & Heq)|(x & y & _ & _ & Heq & Hb)].
  - assert (Hb2 : (0 :: hashv (node_bytes n)) ∈ builder_inputs ns).
    { unfold builder_inputs. apply elem_of_app. right. apply elem_of_app. left.
      apply elem_of_list_fmap. eauto. }
    assert (Hb1 : node_bytes n ∈ builder_inputs ns).
    { unfold builder_inputs. apply elem_of_app. left. apply elem_of_list_fmap. eauto. }
    destruct (same_or_collide _ _ _ _ Hv2 Hb2 Heq) as [Hs|Hcol]; [|auto].
    injection Hs as Hs. destruct (same_or_collide _ _ _ _ Hv1 Hb1 Hs) as [Hs1|Hcol]; [|auto].
    left. exists n. pose proof (proj1 (combine_last l n) Hn) as Hl. split; [exact Hl|].
    assert (Htn : typed n).
    { destruct Hl as (pre & post & -> & _). rewrite Forall_forall in Hty. apply Hty.
      apply elem_of_list_In. apply elem_of_app. right. left. }
    destruct Htn as [Ht1 Ht2].
    destruct (entry_bytes_inj _ _ _ _ _ _ Hsz Hi Ht1 Hcap Ht2 Hs1) as (A & B & C). auto.
  - destruct (same_or_collide _ _ _ _ Hv2 Hb Heq) as [Hs|Hcol]; [discriminate|auto].
Qed.

(** On chain: an escrow opened with a proof against a built root belongs to the list. *)
Theorem C29_escrow_is_listed w k owner mk payer proof idx cap w' fx l version c kc :
  sized -> reachable w -> step w (IEscrowMerkle k owner mk payer proof idx cap) = Ok (w', fx) ->
  w_merkles w !! mk = Some kc -> k_root kc = m_root c ->
  config_new l version = Ok c -> Forall typed l ->
  w_escrows w' !! PEscrow k owner idx = Some (esc_init k owner (w_now w) idx cap) /\
  ((exists n, last_entry l n /\ addr_bytes (n_owner n) = addr_bytes owner /\ n_idx n = idx /\ n_cap n = cap) \/
   collision (verifier_inputs owner idx cap proof) (builder_inputs (m_tree_nodes c))).
Proof.
  intros Hsz Hw Hs Hmk Hroot Hc Hty. cbn [step] in Hs.
  apply create_merkle_escrow_inv in Hs as (p & c0 & Hp & Hc0 & _ & _ & _ & Hv & Hpr & Hi & Hcap & Hf).
  assert (c0 = kc) as -> by congruence. rewrite Hroot in Hv.
  split; [|eapply C29_accepted_is_listed; eauto].
  apply finish_create_inv in Hf as (r & _ & _ & _ & _ & _ & _ & _ & -> & _). cbn. apply lookup_insert.
Qed.


(** * C56: entries that are dropped *)

(** An owner listed for two registries keeps one place only: the builder has no proof for the
    other entry, whatever the hash function. *)
Theorem C56_every_entry_kept_refuted :
  exists l version c n,
    config_new l version = Ok c /\ n ∈ l /\
    ~ exists m, m ∈ m_tree_nodes c /\ n_owner m = n_owner n /\ n_idx m = n_idx n.
Proof.
  set (l := [mkNode (Wallet 2) 0 500 None; mkNode (Wallet 3) 1 300 None; mkNode (Wallet 2) 1 700 None]).
  exists l, 1, (built (combine_nodes l) 1), (mkNode (Wallet 2) 0 500 None).
  split; [apply config_new_built; [discriminate|vm_compute; discriminate]|]. split; [left|].
  intros (m & Hm & Ho & Hi). apply built_node in Hm as (i & n & Hn & ->). cbn in Ho, Hi.
  assert (Hc : combine_nodes l = [mkNode (Wallet 2) 1 700 None; mkNode (Wallet 3) 1 300 None]) by reflexivity.
  rewrite Hc in Hn. destruct i as [|[|i]]; cbn in Hn; [injection Hn as <-; cbn in *; lia| |discriminate].
  injection Hn as <-. cbn in *. discriminate.
Qed.

(** What holds instead: nothing is lost when no owner is listed twice. *)
Theorem C56_distinct_owners_kept l version c n :
  config_new l version = Ok c -> NoDup (map n_owner l) -> n ∈ l ->
  exists proof, mkNode (n_owner n) (n_idx n) (n_cap n) (Some proof) ∈ m_tree_nodes c /\
    merkle_verify proof (m_root c) (merkle_leaf (n_owner n) (n_idx n) (n_cap n)) = true.
Proof.
  intros Hc Hd Hn. apply (C28_every_entry_proved l version c _ _ _ Hc).
  apply elem_of_list_split in Hn as (pre & post & ->). exists (n_proof n), pre, post.
  destruct n as [o i cp pf]. cbn. split; [reflexivity|]. intros m Hm Ho.
  rewrite map_app in Hd. apply NoDup_app in Hd as (_ & _ & Hd). cbn in Hd.
  apply list.NoDup_cons in Hd as [Hx _]. apply Hx. apply elem_of_list_fmap. exists m. auto.
Qed.

(** * C29 over whole histories *)

(** [root] was published for presale [k] by an accepted instruction of the history [l]. *)
Definition published (l : list op) (k : addr) (root : bytes) : Prop :=
  exists l1 l2 creator version w' fx,
    l = l1 ++ ICreateMerkle k creator root version :: l2 /\
    step (run genesis l1) (ICreateMerkle k creator root version) = Ok (w', fx).
(** (owner, index, cap) is on the list, up to the byte image of the owner. *)
Definition listed (wl : list tnode) (owner : addr) (idx cap : Z) : Prop :=
  exists n, last_entry wl n /\ addr_bytes (n_owner n) = addr_bytes owner /\ n_idx n = idx /\ n_cap n = cap.
(** An accepted escrow creation of the history exhibits a collision with the builder's tree [c]. *)
Definition forged (l : list op) (k owner : addr) (idx cap : Z) (c : cmtree) : Prop :=
  exists l1 l2 mk payer proof w' fx,
    l = l1 ++ IEscrowMerkle k owner mk payer proof idx cap :: l2 /\
    step (run genesis l1) (IEscrowMerkle k owner mk payer proof idx cap) = Ok (w', fx) /\
    collision (verifier_inputs owner idx cap proof) (builder_inputs (m_tree_nodes c)).

Lemma published_snoc l o k root : published l k root -> published (l ++ [o]) k root.
Proof.
  intros (l1 & l2 & cr & v & w' & fx & -> & Hs). exists l1, (l2 ++ [o]), cr, v, w', fx.
  split; [|exact Hs]. rewrite <- app_assoc. reflexivity.
Qed.
Lemma forged_snoc l o k owner idx cap c : forged l k owner idx cap c -> forged (l ++ [o]) k owner idx cap c.
Proof.
  intros (l1 & l2 & mk & py & pf & w' & fx & -> & R). exists l1, (l2 ++ [o]), mk, py, pf, w', fx.
  split; [|exact R]. rewrite <- app_assoc. reflexivity.
Qed.
Lemma run_snoc w l o : run w (l ++ [o]) = exec (run w l) o.
Proof. unfold run. rewrite foldl_app. reflexivity. Qed.

(** If every root the creator ever published for a merkle presale was built from some list, then
    every open escrow of the presale is on one of those lists (or a collision was submitted). *)
Theorem C29_all_escrows_listed l k p ek e :
  sized ->
  (forall root, published l k root -> exists wl version c,
     config_new wl version = Ok c /\ m_root c = root /\ Forall typed wl) ->
  w_presales (run genesis l) !! k = Some p -> p_wl p = 1 ->
  w_escrows (run genesis l) !! ek = Some e -> e_presale e = k ->
  exists root wl version c,
    published l k root /\ config_new wl version = Ok c /\ m_root c = root /\ Forall typed wl /\
    (listed wl (e_owner e) (e_idx e) (e_cap e) \/
     forged l k (e_owner e) (e_idx e) (e_cap e) c).
Proof.
  intros Hsz. revert p ek e. induction l as [|o l IH] using rev_ind; intros p ek e Hpub Hp Hwl He Hk.
  { vm_compute in He. discriminate. }
  assert (Hw : reachable (run genesis l)) by (exists l; reflexivity).
  pose proof (reachable_inv _ Hw) as Hi.
  assert (Hold : forall e0, w_escrows (run genesis l) !! ek = Some e0 ->
    e_presale e0 = e_presale e -> e_owner e0 = e_owner e -> e_idx e0 = e_idx e -> e_cap e0 = e_cap e ->
    exists root wl version c,
    published (l ++ [o]) k root /\ config_new wl version = Ok c /\ m_root c = root /\ Forall typed wl /\
    (listed wl (e_owner e) (e_idx e) (e_cap e) \/
     forged (l ++ [o]) k (e_owner e) (e_idx e) (e_cap e) c)).
  { intros e0 He0 E1 E2 E3 E4. destruct (i_escrows _ Hi _ _ He0) as (p0 & Hp0). rewrite E1, Hk in Hp0.
    destruct (C15_terms_immutable _ [o] _ _ Hw Hp0) as (p1 & Hp1 & Ht & _).
    change (run (run genesis l) [o]) with (exec (run genesis l) o) in Hp1.
    rewrite run_snoc in Hp. assert (p1 = p) as -> by congruence.
    assert (Hwl0 : p_wl p0 = 1) by (unfold terms_of in Ht; congruence).
    destruct (IH p0 ek e0) as (root & wl & v & c & P1 & P2 & P3 & P4 & P5); auto.
    { intros root Hr. apply Hpub. apply published_snoc. exact Hr. }
    { congruence. }
    exists root, wl, v, c. split; [apply published_snoc; exact P1|]. do 3 (split; [assumption|]).
    rewrite E2, E3, E4 in P5. destruct P5 as [P5|P5]; [auto|right; apply forged_snoc; exact P5]. }
  rewrite run_snoc in He, Hp. unfold exec in He, Hp.
  destruct (step (run genesis l) o) as [[w' fx]|] eqn:Hs; [|eapply Hold; eauto].
  destruct (w_escrows (run genesis l) !! ek) as [e0|] eqn:He0.
  { destruct (proj2 (C13_escrow_changes _ _ _ _ _ _ Hw Hs He0) _ He) as (E1 & E2 & E3 & E4 & _).
    apply (Hold e0); auto. }
  clear Hold.
  destruct (does_escrow _ _ _ _ ek (step_does _ _ _ _ Hi Hs)) as
    [Hx|k0 owner idx cap p0 r Hcr Hek Hd Hx|? ? ? ? ? ? ? ? ? ? ? ? ? ? ? ? ? ? ? Hd _|? ? ? ? ? ? ? ? ? ? ? ? ? ? ? ? Hd _
    |? ? ? ? ? ? ? ? ? ? ? ? ? ? Hd _|? ? ? ? ? ? ? ? ? ? ? ? ? ? Hd _|? ? ? ? ? ? Hd _|? ? ? ? ? ? ? Hd _];
    try (destruct Hd; congruence).
  { congruence. }
  rewrite He in Hx. injection Hx as ->. cbn in Hk. subst k0. cbn [e_owner e_idx e_cap esc_init].
  assert (Hwl0 : p_wl p0 = 1).
  { pose proof (dc_presale _ _ _ _ _ _ _ _ _ Hd) as Hp0.
    destruct (C15_terms_immutable _ [o] _ _ Hw Hp0) as (p1 & Hp1 & Ht & _).
    change (run (run genesis l) [o]) with (exec (run genesis l) o) in Hp1. unfold exec in Hp1.
    rewrite Hs in Hp1. assert (p1 = p) as -> by congruence. unfold terms_of in Ht. congruence. }
  destruct o; try discriminate; cbn in Hcr; injection Hcr as E1 E2 E3; pose proof Hs as Hstep; cbn [step] in Hs.
  - subst. apply create_permissionless_inv in Hs as (q & Hq & _ & Hql & _).
    pose proof (dc_presale _ _ _ _ _ _ _ _ _ Hd). assert (q = p0) by congruence. subst. lia.
  - subst. apply create_authority_inv in Hs as (q & a & Hq & _ & _ & _ & Hql & _).
    pose proof (dc_presale _ _ _ _ _ _ _ _ _ Hd). assert (q = p0) by congruence. subst. lia.
  - rewrite E1, E2, E3 in *. apply create_merkle_escrow_inv in Hs as (q & c0 & Hq & Hc0 & Hck & _ & _ & Hv & Hpf & Hix & Hcp & Hf).
    destruct (C50_root_provenance _ _ _ Hc0) as (l1 & l2 & q1 & w1 & fx1 & Hl & _ & _ & Hs1).
    rewrite Hck in *.
    assert (Hp1 : published (l ++ [IEscrowMerkle k owner config payer proof idx cap0]) k (k_root c0)).
    { apply published_snoc. exists l1, l2, (p_owner q1), (k_version c0), w1, fx1. auto. }
    destruct (Hpub _ Hp1) as (wl & v & c & Hcn & Hcr & Hty).
    exists (k_root c0), wl, v, c. do 4 (split; [assumption|]).
    assert (cap0 = cap) as ->.
    { apply finish_create_inv in Hf as (r2 & _ & _ & _ & _ & _ & _ & _ & Hw2 & _).
      rewrite Hw2, Hek in He. cbn in He. rewrite lookup_insert in He. injection He. auto. }
    rewrite <- Hcr in Hv.
    destruct (C29_accepted_is_listed wl v c owner idx cap proof Hsz Hcn Hty Hix Hcp Hpf Hv) as [Hl1|Hcol].
    + left. exact Hl1.
    + right. exists l, [], config, payer, proof, w', fx. auto.
Qed.

End WithCrypto.

(** * Examples *)

#[local] Existing Instance toy.

Lemma le_bytes_u8 n : forall z, forallb in_u8 (le_bytes n z) = true.
Proof.
  induction n as [|n IH]; intros z; cbn [le_bytes forallb]; [reflexivity|]. rewrite IH, andb_true_r.
  unfold in_u8, U8MAX. pose proof (Z.mod_pos_bound z 256 ltac:(lia)).
  destruct (Z.leb_spec 0 (z mod 256)), (Z.leb_spec (z mod 256) 255); try reflexivity; lia.
Qed.
(** The hypothesis on sizes can be met. *)
Example toy_sized : @sized toy.
Proof.
  split.
  - intros x. unfold is_hash. cbn [hashv toy]. rewrite le_bytes_length, le_bytes_u8. reflexivity.
  - intros a. cbn [addr_bytes toy]. apply le_bytes_length.
Qed.

(** Five entries (an odd number on two levels), one owner listed twice. *)
Definition wl5 : list tnode :=
  [mkNode alice 0 500 None; mkNode bob 1 300 None; mkNode carol 0 800 None;
   mkNode oper 1 200 None; mkNode alice 1 900 None; mkNode (Wallet 77) 0 100 None].
Example C28_build_example :
  match config_new wl5 7 with
  | Ok c => Some (map (fun n => (n_owner n, n_idx n, n_cap n, option_map length (n_proof n))) (m_tree_nodes c))
  | Err _ => None
  end = Some [(alice, 1, 900, Some 3%nat); (bob, 1, 300, Some 3%nat); (carol, 0, 800, Some 3%nat);
              (oper, 1, 200, Some 3%nat); (Wallet 77, 0, 100, Some 3%nat)].
Proof. vm_compute. reflexivity. Qed.
(** The root of this list published in a presale, and an escrow created with the builder's proof;
    the entry that was dropped, another cap and another index are refused with every proof built. *)
Definition wl_pre (c : cmtree) : list op :=
  setup ++ [mk_init; ICreateMerkle k1 creator (m_root c) 7; EClock 1500].
Example C28_escrow_example :
  match config_new wl5 7 with
  | Ok c =>
    let w := run genesis (wl_pre c) in
    let try owner idx cap pf := ok_step w (IEscrowMerkle k1 owner mk_cfg carol pf idx cap) in
    Some (map (fun n => (try (n_owner n) (n_idx n) (n_cap n) (default [] (n_proof n)),
                         try (n_owner n) (n_idx n) (n_cap n + 1) (default [] (n_proof n)),
                         try alice 0 500 (default [] (n_proof n)))) (m_tree_nodes c))
  | Err _ => None
  end = Some [(true, false, false); (true, false, false); (true, false, false);
              (true, false, false); (true, false, false)].
Proof. vm_compute. reflexivity. Qed.
Example C28_empty_refused : config_new [] 7 = Err MerkleRootError.
Proof. vm_compute. reflexivity. Qed.

(** The hypotheses of [C29_all_escrows_listed] on a history with an escrow opened by proof. *)
Example C29_history_example :
  match config_new wl5 7 with
  | Ok c =>
    match m_tree_nodes c with
    | _ :: n :: _ =>
      let l := wl_pre c ++ [IEscrowMerkle k1 bob mk_cfg carol (default [] (n_proof n)) 1 300] in
      (bool_decide (is_Some (w_escrows (run genesis l) !! esc bob 1)),
       option_map p_wl (w_presales (run genesis l) !! k1))
    | _ => (false, None)
    end
  | Err _ => (false, None)
  end = (true, Some 1).
Proof. vm_compute. reflexivity. Qed.
