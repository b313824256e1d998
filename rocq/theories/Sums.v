(** Sums over finite maps and lists. *)
From Verif Require Import Base Tactics.

Section msum.
Context {A : Type}.
Implicit Types (f g : addr -> A -> Z) (m : gmap addr A).

(** Sum of [f k x] over all entries. *)
Definition msum (f : addr -> A -> Z) (m : gmap addr A) : Z :=
  map_fold (fun k x acc => f k x + acc) 0 m.

Lemma msum_empty f : msum f ∅ = 0.
Proof. apply map_fold_empty. Qed.

Lemma msum_insert_new f m k x : m !! k = None -> msum f (<[k := x]> m) = f k x + msum f m.
Proof.
  intros Hn. unfold msum.
  rewrite (map_fold_insert_L (fun k x acc => f k x + acc) 0 k x m); [reflexivity| |assumption].
  intros. lia.
Qed.

Lemma msum_delete f m k x : m !! k = Some x -> msum f m = f k x + msum f (delete k m).
Proof.
  intros Hs. rewrite <- (insert_delete m k x) at 1 by assumption.
  apply msum_insert_new. apply lookup_delete.
Qed.

Lemma msum_update f m k x y :
  m !! k = Some x -> msum f (<[k := y]> m) = msum f m - f k x + f k y.
Proof.
  intros Hs. rewrite (msum_delete f m k x) by assumption.
  rewrite <- insert_delete_insert. rewrite msum_insert_new by apply lookup_delete. lia.
Qed.

Lemma msum_ext f g m :
  (forall k x, m !! k = Some x -> f k x = g k x) -> msum f m = msum g m.
Proof.
  induction m as [|k x m Hn IH] using map_ind; intros Hfg.
  - rewrite !msum_empty. reflexivity.
  - rewrite !msum_insert_new by assumption. rewrite IH, (Hfg k x).
    + reflexivity.
    + apply lookup_insert.
    + intros k' x' Hl. apply Hfg. rewrite lookup_insert_ne; [assumption|]. congruence.
Qed.

Lemma msum_le f g m :
  (forall k x, m !! k = Some x -> f k x <= g k x) -> msum f m <= msum g m.
Proof.
  induction m as [|k x m Hn IH] using map_ind; intros Hfg.
  - rewrite !msum_empty. lia.
  - rewrite !msum_insert_new by assumption.
    assert (f k x <= g k x) by (apply Hfg, lookup_insert).
    assert (msum f m <= msum g m).
    { apply IH. intros k' x' Hl. apply Hfg. rewrite lookup_insert_ne; [assumption|]. congruence. }
    lia.
Qed.

Lemma msum_zero m : msum (fun _ _ => 0) m = 0.
Proof.
  induction m as [|k x m Hn IH] using map_ind.
  - apply msum_empty.
  - rewrite msum_insert_new by assumption. lia.
Qed.

Lemma msum_nonneg f m : (forall k x, m !! k = Some x -> 0 <= f k x) -> 0 <= msum f m.
Proof.
  intros Hf. rewrite <- (msum_zero m). apply msum_le. assumption.
Qed.

Lemma msum_add f g m : msum (fun k x => f k x + g k x) m = msum f m + msum g m.
Proof.
  induction m as [|k x m Hn IH] using map_ind.
  - rewrite !msum_empty. reflexivity.
  - rewrite !msum_insert_new by assumption. lia.
Qed.

Lemma msum_member f m k x :
  m !! k = Some x -> (forall k' x', m !! k' = Some x' -> 0 <= f k' x') ->
  f k x <= msum f m.
Proof.
  intros Hs Hf. rewrite (msum_delete f m k x) by assumption.
  assert (0 <= msum f (delete k m)).
  { apply msum_nonneg. intros k' x' Hl. apply lookup_delete_Some in Hl as [_ Hl]. auto. }
  lia.
Qed.

Lemma msum_member2 f m k x k' x' :
  m !! k = Some x -> m !! k' = Some x' -> k <> k' ->
  (forall k x, m !! k = Some x -> 0 <= f k x) ->
  f k x + f k' x' <= msum f m.
Proof.
  intros Hs Hs' Hne Hf. rewrite (msum_delete f m k x) by assumption.
  assert (f k' x' <= msum f (delete k m)).
  { apply msum_member.
    - rewrite lookup_delete_ne; assumption.
    - intros k2 x2 Hl. apply lookup_delete_Some in Hl as [_ Hl]. auto. }
  lia.
Qed.

End msum.

(** Sum over a list. *)
Fixpoint lsum {A} (f : A -> Z) (l : list A) : Z :=
  match l with [] => 0 | x :: l => f x + lsum f l end.

Lemma lsum_app {A} (f : A -> Z) l l' : lsum f (l ++ l') = lsum f l + lsum f l'.
Proof. induction l as [|x l IH]; cbn; lia. Qed.

Lemma lsum_update {A} (f : A -> Z) l i x y :
  l !! i = Some x -> lsum f (<[i := y]> l) = lsum f l - f x + f y.
Proof.
  revert i. induction l as [|z l IH]; intros [|i] Hl; try discriminate.
  - cbn in Hl. injection Hl as ->. cbn. lia.
  - cbn in Hl. change (f z + lsum f (<[i := y]> l) = f z + lsum f l - f x + f y).
    rewrite (IH i) by assumption. lia.
Qed.

Lemma lsum_ext {A} (f g : A -> Z) l : (forall x, x ∈ l -> f x = g x) -> lsum f l = lsum g l.
Proof.
  induction l as [|x l IH]; intros Hfg; cbn; [reflexivity|].
  rewrite (Hfg x) by constructor. rewrite IH; [reflexivity|].
  intros y Hy. apply Hfg. constructor. assumption.
Qed.

Lemma lsum_le {A} (f g : A -> Z) l : (forall x, x ∈ l -> f x <= g x) -> lsum f l <= lsum g l.
Proof.
  induction l as [|x l IH]; intros Hfg; cbn; [lia|].
  assert (f x <= g x) by (apply Hfg; constructor).
  assert (lsum f l <= lsum g l) by (apply IH; intros y Hy; apply Hfg; constructor; assumption).
  lia.
Qed.

Lemma lsum_zero {A} (l : list A) : lsum (fun _ => 0) l = 0.
Proof. induction l; cbn; lia. Qed.

Lemma lsum_nonneg {A} (f : A -> Z) l : (forall x, x ∈ l -> 0 <= f x) -> 0 <= lsum f l.
Proof. intros Hf. rewrite <- (lsum_zero l). apply lsum_le. assumption. Qed.

Lemma lsum_member {A} (f : A -> Z) l i x :
  l !! i = Some x -> (forall y, y ∈ l -> 0 <= f y) -> f x <= lsum f l.
Proof.
  revert i. induction l as [|z l IH]; intros [|i] Hl Hf; cbn in *; try discriminate.
  - injection Hl as ->. assert (0 <= lsum f l); [|lia].
    apply lsum_nonneg. intros y Hy. apply Hf. constructor. assumption.
  - assert (f x <= lsum f l).
    { apply (IH i); [assumption|]. intros y Hy. apply Hf. constructor. assumption. }
    assert (0 <= f z) by (apply Hf; constructor). lia.
Qed.

Lemma lsum_add {A} (f g : A -> Z) l : lsum (fun x => f x + g x) l = lsum f l + lsum g l.
Proof. induction l; cbn; lia. Qed.
Lemma lsum_sub {A} (f g : A -> Z) l : lsum (fun x => f x - g x) l = lsum f l - lsum g l.
Proof. induction l; cbn; lia. Qed.
