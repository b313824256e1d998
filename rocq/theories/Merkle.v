(** The off-chain whitelist builder, crate /repo/merkle-tree.

    Modelled function by function over the same hash parameter as the on-chain verifier
    ([Crypto]).  [usize] arithmetic is modelled by [nat] without overflow (a level never has more
    entries than the vector that holds the leaves).  [calculate_vec_capacity]
    (merkle-tree/src/merkle_tree.rs:88-109) only sizes an allocation and is modelled in P_MerkleSize.v;
    file input and output (config_merkle_tree.rs:91-105) and logging are left out.  Slice indexing outside the
    vector, [assert!], [expect] and [panic!] are the explicit error [Panic]. *)
From Verif Require Import Base World Instr.

(** merkle-tree/src/merkle_tree.rs:22-26, struct MerkleTree *)
Record mtree := mkTree { t_leaf_count : nat; t_nodes : list bytes }.

(** merkle-tree/src/merkle_tree.rs:28-29, struct ProofEntry(target, left sibling, right sibling) *)
Record pentry := mkEntry { q_target : bytes; q_left : option bytes; q_right : option bytes }.

(** merkle-tree/src/tree_node.rs:6-17, struct TreeNode *)
Record tnode := mkNode {
  n_owner : addr;
  n_idx : Z;                       (* u8 *)
  n_cap : Z;                       (* u64 *)
  n_proof : option (list bytes)
}.

(** merkle-tree/src/config_merkle_tree.rs:39-46, struct ConfigMerkleTree *)
Record cmtree := mkConf {
  m_root : bytes;
  m_version : Z;
  m_max_num_nodes : Z;
  m_tree_nodes : list tnode
}.

(** Rust indexing [nodes[i]]: panics out of range. *)
Definition at_ (nodes : list bytes) (i : nat) : res bytes := ok_or (nodes !! i) Panic.

(** merkle-tree/src/merkle_tree.rs:80-86 *)
Definition next_level_len (level_len : nat) : nat :=
  if (level_len =? 1)%nat then 0%nat else ((level_len + 1) / 2)%nat.

(** merkle-tree/src/merkle_tree.rs:32-40, ProofEntry::new with its [assert!] *)
Definition entry_new (target : bytes) (l r : option bytes) : res pentry :=
  let none (o : option bytes) := match o with None => true | Some _ => false end in
  let* _ := require (xorb (none l) (none r)) Panic in
  Ok (mkEntry target l r).

Section WithCrypto.
Context `{Crypto}.

(** merkle-tree/src/merkle_tree.rs:10-14 *)
Definition hash_leaf (d : bytes) : bytes := hashv ([0] ++ d).
(** merkle-tree/src/merkle_tree.rs:16-20 *)
Definition hash_intermediate (l r : bytes) : bytes := hashv ([1] ++ l ++ r).

(** merkle-tree/src/merkle_tree.rs:58-71, Proof::verify *)
Fixpoint path_verify (p : list pentry) (candidate : bytes) : bool :=
  match p with
  | [] => true
  | pe :: p =>
    let lsib := default candidate (q_left pe) in
    let rsib := default candidate (q_right pe) in
    let hash := hash_intermediate lsib rsib in
    if bool_decide (hash = q_target pe) then path_verify p hash else false
  end.

(** merkle-tree/src/merkle_tree.rs:138-151: the hash pushed for a pair of siblings *)
Definition parent (sorted : bool) (l r : bytes) : bytes :=
  if sorted then
    if bytes_le l r then hash_intermediate l r else hash_intermediate r l
  else hash_intermediate l r.

(** merkle-tree/src/merkle_tree.rs:128-152: the body of the [while], over the indices [is] *)
Fixpoint push_level (sorted : bool) (nodes : list bytes) (prev_start prev_len : nat)
    (is : list nat) : res (list bytes) :=
  match is with
  | [] => Ok nodes
  | i :: is =>
    let prev_idx := (2 * i)%nat in
    let* l := at_ nodes (prev_start + prev_idx) in
    let* r := if (prev_idx + 1 <? prev_len)%nat then at_ nodes (prev_start + prev_idx + 1)
              else at_ nodes (prev_start + prev_idx) in
    push_level sorted (nodes ++ [parent sorted l r]) prev_start prev_len is
  end.

(** merkle-tree/src/merkle_tree.rs:127-157: the [while] loop.  [fuel] bounds the number of
    iterations and running out of it is an error; the callers pass the number of leaves, which is
    enough because every level is shorter than the one below. *)
Fixpoint push_levels (fuel : nat) (sorted : bool) (nodes : list bytes)
    (level_start level_len prev_start prev_len : nat) : res (list bytes) :=
  match fuel with
  | O => if (level_len =? 0)%nat then Ok nodes else Err Panic
  | S fuel =>
    if (level_len =? 0)%nat then Ok nodes
    else
      let* nodes := push_level sorted nodes prev_start prev_len (seq 0 level_len) in
      push_levels fuel sorted nodes (level_start + level_len) (next_level_len level_len)
        level_start level_len
  end.

(** merkle-tree/src/merkle_tree.rs:111-161, MerkleTree::new *)
Definition tree_new (items : list bytes) (sorted : bool) : res mtree :=
  let nodes := map hash_leaf items in
  let n := length items in
  let* nodes := push_levels n sorted nodes n (next_level_len n) 0 n in
  Ok (mkTree n nodes).

(** merkle-tree/src/merkle_tree.rs:163-165 *)
Definition get_root (t : mtree) : option bytes := list.last (t_nodes t).

(** merkle-tree/src/merkle_tree.rs:178-200: the [while] loop of find_path *)
Fixpoint path_loop (fuel : nat) (nodes : list bytes) (level_len level_start node_index : nat)
    (lsib rsib : option bytes) (path : list pentry) : res (list pentry) :=
  match fuel with
  | O => if (level_len =? 0)%nat then Ok path else Err Panic
  | S fuel =>
    if (level_len =? 0)%nat then Ok path
    else
      (* &self.nodes[level_start..(level_start + level_len)] *)
      let* _ := require (level_start + level_len <=? length nodes)%nat Panic in
      let level := take level_len (drop level_start nodes) in
      let* target := at_ level node_index in
      let* path :=
        match lsib, rsib with
        | None, None => Ok path
        | _, _ => let* e := entry_new target lsib rsib in Ok (path ++ [e])
        end in
      let* '(lsib, rsib) :=
        if (node_index mod 2 =? 0)%nat then
          if (node_index + 1 <? length level)%nat then
            let* r := at_ level (node_index + 1) in Ok (None, Some r)
          else let* r := at_ level node_index in Ok (None, Some r)
        else let* l := at_ level (node_index - 1) in Ok (Some l, None) in
      path_loop fuel nodes (next_level_len level_len) (level_start + level_len)
        (node_index / 2)%nat lsib rsib path
  end.

(** merkle-tree/src/merkle_tree.rs:167-202, find_path *)
Definition find_path (t : mtree) (index : nat) : res (option (list pentry)) :=
  if (t_leaf_count t <=? index)%nat then Ok None
  else let* p := path_loop (t_leaf_count t) (t_nodes t) (t_leaf_count t) 0 index None None [] in
       Ok (Some p).

(** merkle-tree/src/utils.rs:6-14: the loop over the entries *)
Fixpoint siblings (p : list pentry) : res (list bytes) :=
  match p with
  | [] => Ok []
  | e :: p =>
    let* h := match q_left e, q_right e with
              | Some h, _ => Ok h
              | None, Some h => Ok h
              | None, None => Err Panic
              end in
    let* t := siblings p in
    Ok (h :: t)
  end.

(** merkle-tree/src/utils.rs:3-16, get_proof *)
Definition get_proof (t : mtree) (index : nat) : res (list bytes) :=
  let* o := find_path t index in
  let* p := ok_or o Panic in
  siblings p.

(** merkle-tree/src/tree_node.rs:19-25, TreeNode::hash *)
Definition node_hash (n : tnode) : bytes :=
  hashv (addr_bytes (n_owner n) ++ le_bytes 1 (n_idx n) ++ le_bytes 8 (n_cap n)).

(** [IndexMap::insert] (crate indexmap): replaces the value of a present key in place, appends
    otherwise.  The map is its list of entries. *)
Fixpoint index_insert (m : list tnode) (n : tnode) : list tnode :=
  match m with
  | [] => [n]
  | x :: m => if beq_addr (n_owner x) (n_owner n) then n :: m else x :: index_insert m n
  end.

(** merkle-tree/src/config_merkle_tree.rs:52-60 *)
Definition combine_nodes (l : list tnode) : list tnode := foldl index_insert [] l.

(** merkle-tree/src/config_merkle_tree.rs:69-71: the proofs of the nodes from index [i] on *)
Fixpoint with_proofs (t : mtree) (i : nat) (l : list tnode) : res (list tnode) :=
  match l with
  | [] => Ok []
  | n :: l =>
    let* p := get_proof t i in
    let* r := with_proofs t (S i) l in
    Ok (mkNode (n_owner n) (n_idx n) (n_cap n) (Some p) :: r)
  end.

(** merkle-tree/src/config_merkle_tree.rs:172-180 *)
Fixpoint verify_nodes (t : mtree) (root : bytes) (i : nat) (hashed : list bytes) : res unit :=
  match hashed with
  | [] => Ok tt
  | h :: hashed =>
    let node := hashv ([0] ++ h) in
    let* proof := get_proof t i in
    let* _ := require (merkle_verify proof root node) MerkleValidationError in
    verify_nodes t root (S i) hashed
  end.

(** merkle-tree/src/config_merkle_tree.rs:153-183; the [assert_eq!] is [Panic] *)
Definition verify_proof (c : cmtree) : res unit :=
  let hashed := map node_hash (m_tree_nodes c) in
  let* mk := tree_new hashed true in
  let* r := ok_or (get_root mk) MerkleValidationError in
  let* _ := require (bool_decide (r = m_root c)) Panic in
  verify_nodes mk (m_root c) 0 hashed.

(** merkle-tree/src/config_merkle_tree.rs:117-151.  The number of distinct owners is compared with
    the number of nodes; an error of [verify_proof] is replaced, a panic is not. *)
Definition validate (c : cmtree) : res unit :=
  let* _ := require (m_max_num_nodes c <=? 2 ^ 32 - 1) MerkleValidationError in
  let* _ := require (Z.of_nat (length (m_tree_nodes c)) =? m_max_num_nodes c)
              MerkleValidationError in
  let* _ := require (length (remove_dups (map n_owner (m_tree_nodes c))) =?
                     length (m_tree_nodes c))%nat MerkleValidationError in
  match verify_proof c with
  | Ok _ => Ok tt
  | Err Panic => Err Panic
  | Err _ => Err MerkleValidationError
  end.

(** merkle-tree/src/config_merkle_tree.rs:50-89, ConfigMerkleTree::new *)
Definition config_new (l : list tnode) (version : Z) : res cmtree :=
  let nodes := combine_nodes l in
  let hashed := map node_hash nodes in
  let* tree := tree_new hashed true in
  let* nodes := with_proofs tree 0 nodes in
  let* root := ok_or (get_root tree) MerkleRootError in
  let c := mkConf root version (Z.of_nat (length nodes)) nodes in
  let* _ := validate c in
  Ok c.

(** merkle-tree/src/config_merkle_tree.rs:107-115, get_node *)
Definition get_node (c : cmtree) (owner : addr) : res tnode :=
  ok_or (List.find (fun n => beq_addr (n_owner n) owner) (m_tree_nodes c)) Panic.

(** merkle-tree/src/config_merkle_tree.rs:193-203, with the collision-free derivation of [addr] *)
Definition get_merkle_root_config_pubkey (c : cmtree) (presale : addr) : addr :=
  PMerkle presale (m_version c).

End WithCrypto.
