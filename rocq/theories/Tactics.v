(** Proof support: inversion of the result monad. *)
From Coq Require Export ZifyBool ZifyNat ZifyN.
From Verif Require Import Base Math.

Lemma rbind_Ok {A B} (r : res A) (k : A -> res B) b :
  rbind r k = Ok b -> exists a, r = Ok a /\ k a = Ok b.
Proof. destruct r as [a|e]; cbn; [|discriminate]. intros Hk. exists a. auto. Qed.

Lemma require_Ok b e u : require b e = Ok u -> b = true.
Proof. unfold require. destruct b; [reflexivity|discriminate]. Qed.

Lemma require_true b e : b = true -> require b e = Ok tt.
Proof. intros ->. reflexivity. Qed.

Lemma ok_or_Ok {A} (o : option A) e a : ok_or o e = Ok a -> o = Some a.
Proof. destruct o; cbn; congruence. Qed.

Lemma Ok_inj {A} (a b : A) : Ok a = Ok b -> a = b.
Proof. congruence. Qed.

Lemma beq_addr_true a b : beq_addr a b = true <-> a = b.
Proof. unfold beq_addr. apply bool_decide_eq_true. Qed.
Lemma beq_addr_refl a : beq_addr a a = true.
Proof. apply beq_addr_true. reflexivity. Qed.
Lemma beq_addr_false a b : beq_addr a b = false <-> a <> b.
Proof. unfold beq_addr. apply bool_decide_eq_false. Qed.

Lemma safe_add_Ok mx a b c : safe_add mx a b = Ok c <-> c = a + b /\ a + b <= mx.
Proof.
  unfold safe_add. destruct (Z.leb_spec (a + b) mx); split; intros HH.
  - apply Ok_inj in HH. lia.
  - destruct HH as [-> _]. reflexivity.
  - discriminate.
  - lia.
Qed.
Lemma safe_sub_Ok a b c : safe_sub a b = Ok c <-> c = a - b /\ b <= a.
Proof.
  unfold safe_sub. destruct (Z.leb_spec b a); split; intros HH.
  - apply Ok_inj in HH. lia.
  - destruct HH as [-> _]. reflexivity.
  - discriminate.
  - lia.
Qed.
Lemma safe_mul_Ok mx a b c : safe_mul mx a b = Ok c <-> c = a * b /\ a * b <= mx.
Proof.
  unfold safe_mul. destruct (Z.leb_spec (a * b) mx); split; intros HH.
  - apply Ok_inj in HH. auto.
  - destruct HH as [-> _]. reflexivity.
  - discriminate.
  - lia.
Qed.
Lemma safe_div_Ok a b c : safe_div a b = Ok c <-> c = a / b /\ b <> 0.
Proof.
  unfold safe_div. destruct (Z.eqb_spec b 0); split; intros HH.
  - discriminate.
  - lia.
  - apply Ok_inj in HH. auto.
  - destruct HH as [-> _]. reflexivity.
Qed.
Lemma cast64_Ok a c : cast64 a = Ok c <-> c = a /\ a <= U64MAX.
Proof.
  unfold cast64. destruct (Z.leb_spec a U64MAX); split; intros HH.
  - apply Ok_inj in HH. auto.
  - destruct HH as [-> _]. reflexivity.
  - discriminate.
  - lia.
Qed.

Lemma bd_true (P : Prop) `{Decision P} : bool_decide P = true <-> P.
Proof. apply bool_decide_eq_true. Qed.

(** One inversion step on a successful computation [H]. *)
Ltac clean_bool :=
  repeat match goal with
  | H : (_ && _)%bool = true |- _ => apply andb_true_iff in H; destruct H as [? H]
  | H : negb _ = true |- _ => apply negb_true_iff in H
  | H : negb _ = false |- _ => apply negb_false_iff in H
  | H : (_ || _)%bool = false |- _ => apply orb_false_iff in H; destruct H as [? H]
  | H : beq_addr _ _ = true |- _ => apply beq_addr_true in H
  | H : beq_addr _ _ = false |- _ => apply beq_addr_false in H
  | H : bool_decide _ = true |- _ => apply bool_decide_eq_true in H
  | H : bool_decide _ = false |- _ => apply bool_decide_eq_false in H
  | H : (_ <=? _) = true |- _ => apply Z.leb_le in H
  | H : (_ <? _) = true |- _ => apply Z.ltb_lt in H
  | H : (_ =? _) = true |- _ => apply Z.eqb_eq in H
  | H : (_ <=? _) = false |- _ => apply Z.leb_gt in H
  | H : (_ <? _) = false |- _ => apply Z.ltb_ge in H
  | H : (_ =? _) = false |- _ => apply Z.eqb_neq in H
  end.

Ltac inv1 H :=
  match type of H with
  | rbind _ _ = Ok _ =>
      let a := fresh "v" in let Ha := fresh "Hv" in
      apply rbind_Ok in H; destruct H as [a [Ha H]];
      repeat (inv1 Ha; cbv beta in Ha); cbv beta in H
  | require _ _ = Ok _ => apply require_Ok in H
  | ok_or _ _ = Ok _ => apply ok_or_Ok in H
  | safe_add _ _ _ = Ok _ => apply safe_add_Ok in H; destruct H as [? H]
  | safe_sub _ _ = Ok _ => apply safe_sub_Ok in H; destruct H as [? H]
  | safe_mul _ _ _ = Ok _ => apply safe_mul_Ok in H; destruct H as [? H]
  | safe_div _ _ = Ok _ => apply safe_div_Ok in H; destruct H as [? H]
  | cast64 _ = Ok _ => apply cast64_Ok in H; destruct H as [? H]
  | Ok _ = Ok _ => apply Ok_inj in H
  | Err _ = Ok _ => discriminate H
  | (let '(_, _) := ?x in _) = Ok _ => destruct x eqn:?
  | (match ?x with Ok _ => _ | Err _ => _ end) = Ok _ => destruct x eqn:?
  end.
Ltac inv H := repeat (inv1 H; cbv beta in H).

(** [lia] without the disjunctions and implications in the context, if possible. *)
Ltac nodisj := repeat match goal with
  | H : _ \/ _ |- _ => clear H
  | H : ?A -> _ |- _ => match type of A with Prop => clear H end
  end.
Ltac qlia := first [solve [nodisj; lia] | lia].
