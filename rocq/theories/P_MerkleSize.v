(** C28, sizes: how many nodes a whitelist tree has and how long its proofs are. *)
From Verif Require Import Base Math State Handlers Token World Instr Exec Tactics Merkle Scenario P_Merkle.
From Coq Require Import ZifyNat.
Ltac Zify.zify_post_hook ::= Z.to_euclidean_division_equations.

(** merkle-tree/src/merkle_tree.rs:88-109.  [fast_math::log2_raw] is an approximation in floating
    point; the exact rounded-down logarithm less [slack] stands for what it returns. *)
Definition calculate_vec_capacity (slack leaf_count : nat) : nat :=
  if (0 <? leaf_count)%nat then (Nat.log2 leaf_count - slack) + 2 * leaf_count + 1 else 0%nat.

(** Halving, rounded up, takes one off the rounded-up logarithm. *)
Lemma log2_up_half n : (2 <= n)%nat -> Nat.log2_up n = S (Nat.log2_up ((n + 1) / 2)).
Proof.
  intros Hn. rewrite Nat.log2_up_eqn by lia. f_equal.
  destruct (Nat.eq_dec n 2) as [->|]; [reflexivity|].
  rewrite Nat.log2_up_eqn by lia.
  replace (Nat.pred ((n + 1) / 2)) with (Nat.div2 (Nat.pred n))
    by (rewrite Nat.div2_div; lia).
  set (x := Nat.pred n). assert (2 <= x)%nat by (subst x; lia). clearbody x.
  destruct (Nat.Even_or_Odd x) as [[m ->]|[m ->]].
  - rewrite Nat.div2_double, Nat.log2_double by lia. reflexivity.
  - rewrite Nat.add_1_r, Nat.div2_succ_double, <- Nat.add_1_r, Nat.log2_succ_double by lia. reflexivity.
Qed.
Lemma next_len_eq n : (2 <= n)%nat -> next_level_len n = ((n + 1) / 2)%nat.
Proof. intros Hn. unfold next_level_len. destruct (Nat.eqb_spec n 1); [lia|reflexivity]. Qed.

Section WithCrypto.
Context `{Crypto}.

Lemma tower_size sorted : forall fuel cur, (2 <= length cur <= fuel)%nat ->
  (length cur + length (concat (tower fuel sorted cur)) + 2 <= 2 * length cur + Nat.log2_up (length cur))%nat.
Proof.
  induction fuel as [|fuel IH]; intros cur Hf; [lia|]. cbn [tower].
  pose proof (next_len_pos (length cur) ltac:(lia)) as Hp.
  rewrite (proj2 (Nat.eqb_neq _ _)) by lia. cbn [concat]. rewrite app_length, up_length.
  pose proof (next_len_eq (length cur) ltac:(lia)) as He. rewrite log2_up_half, <- He by lia.
  destruct (Nat.eq_dec (next_level_len (length cur)) 1) as [H1|H1].
  - assert (length cur = 2)%nat by lia.
    assert (Hz : concat (tower fuel sorted (P_Merkle.up sorted cur)) = []).
    { destruct fuel; [reflexivity|]. cbn [tower]. rewrite up_length, H1. reflexivity. }
    rewrite Hz, H1. cbn [length]. lia.
  - specialize (IH (P_Merkle.up sorted cur)). rewrite up_length in IH. lia.
Qed.

Lemma sibs_length sorted : forall fuel cur i, (0 < length cur <= fuel)%nat ->
  length (sibs fuel sorted cur i) = Nat.log2_up (length cur).
Proof.
  induction fuel as [|fuel IH]; intros cur i Hf; [lia|]. cbn [sibs].
  destruct (Nat.eq_dec (length cur) 1) as [H1|H1].
  - rewrite H1. reflexivity.
  - pose proof (next_len_pos (length cur) ltac:(lia)) as Hp.
    rewrite (proj2 (Nat.eqb_neq _ _)) by lia. cbn [length].
    rewrite log2_up_half, <- next_len_eq by lia. f_equal. rewrite IH; rewrite up_length; [reflexivity|].
    pose proof (next_len_lt (length cur)). lia.
Qed.

(** The nodes of a tree fit the reserved capacity, even if the approximate logarithm is one too low:
    the vector of nodes is never moved. *)
Theorem C28_capacity items sorted slack :
  (slack <= 1)%nat ->
  exists t, tree_new items sorted = Ok t /\
    (length (t_nodes t) <= calculate_vec_capacity slack (length items))%nat.
Proof.
  intros Hs. exists (mkTree (length items) (all_nodes sorted items)). split; [apply tree_new_nodes|].
  cbn [t_nodes]. unfold all_nodes. rewrite app_length, leaves_length. unfold calculate_vec_capacity.
  destruct (Nat.eq_dec (length items) 0) as [H0|H0].
  { destruct items; [cbn; lia|discriminate]. }
  rewrite (proj2 (Nat.ltb_lt _ _)) by lia.
  destruct (Nat.eq_dec (length items) 1) as [H1|H1].
  { rewrite H1. cbn [tower]. rewrite leaves_length, H1. cbn. lia. }
  pose proof (tower_size sorted (length items) (leaves items)) as Ht. rewrite leaves_length in Ht.
  pose proof (Nat.le_log2_up_succ_log2 (length items)). lia.
Qed.

(** Every proof the builder stores has exactly [log2 n] entries, rounded up, for [n] owners. *)
Theorem C28_proof_length l version c m proof :
  config_new l version = Ok c -> m ∈ m_tree_nodes c -> n_proof m = Some proof ->
  length proof = Nat.log2_up (length (m_tree_nodes c)).
Proof.
  intros Hc Hm Hp. apply config_new_inv in Hc as (Hne & -> & Hlen).
  apply built_node in Hm as (i & n & Hi & ->). cbn in Hp. injection Hp as <-.
  unfold proof_of. rewrite sibs_length.
  - rewrite leaves_length, map_length. cbn [built m_tree_nodes]. rewrite imap_length. reflexivity.
  - rewrite leaves_length, map_length. apply lookup_lt_Some in Hi. lia.
Qed.
End WithCrypto.

Section Example_.
#[local] Existing Instance toy.

(** Five leaves: eleven nodes, capacity thirteen; three owners: proofs of two entries. *)
Example C28_capacity_example :
  (match tree_new [[1]; [2]; [3]; [4]; [5]] true with Ok t => length (t_nodes t) | _ => 0%nat end,
   calculate_vec_capacity 0 5, calculate_vec_capacity 1 9,
   match config_new [mkNode alice 0 5 None; mkNode bob 1 6 None;
                     mkNode carol 0 7 None] 1 with
   | Ok c => map (fun n => match n_proof n with Some p => length p | None => 0%nat end) (m_tree_nodes c)
   | _ => [] end)
  = (11%nat, 13%nat, 21%nat, [2%nat; 2%nat; 2%nat]).
Proof. vm_compute. reflexivity. Qed.
End Example_.
