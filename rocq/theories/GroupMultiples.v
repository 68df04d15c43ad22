(** Integer multiples in a commutative group.  Nothing in this file is a model
    of code of /repo. *)
From Coq Require Import ZArith Lia.
Local Open Scope Z_scope.

Section Group.
Variable A : Type.
Variables (zero : A) (add : A -> A -> A) (opp : A -> A).
Hypothesis add_comm : forall a b, add a b = add b a.
Hypothesis add_assoc : forall a b c, add (add a b) c = add a (add b c).
Hypothesis add_zero : forall a, add a zero = a.
Hypothesis add_opp : forall a, add a (opp a) = zero.

Fixpoint nmul (n : nat) (a : A) : A :=
  match n with O => zero | S n => add a (nmul n a) end.

Definition zmul (z : Z) (a : A) : A :=
  match z with
  | Z0 => zero
  | Zpos p => nmul (Pos.to_nat p) a
  | Zneg p => opp (nmul (Pos.to_nat p) a)
  end.

Lemma add_cancel a b c : add a b = add a c -> b = c.
Proof.
  intro E. assert (H : forall x, add (opp a) (add a x) = x).
  { intro x. rewrite <- add_assoc, (add_comm (opp a)), add_opp, add_comm. apply add_zero. }
  rewrite <- (H b), <- (H c), E. reflexivity.
Qed.

Lemma opp_unique a b : add a b = zero -> b = opp a.
Proof. intro E. apply (add_cancel a). rewrite E, add_opp. reflexivity. Qed.

Lemma opp_zero : opp zero = zero.
Proof. symmetry. apply opp_unique. apply add_zero. Qed.

Lemma opp_opp a : opp (opp a) = a.
Proof. symmetry. apply opp_unique. rewrite add_comm. apply add_opp. Qed.

Lemma opp_add a b : opp (add a b) = add (opp a) (opp b).
Proof.
  symmetry. apply opp_unique.
  rewrite add_assoc, <- (add_assoc b), (add_comm b), add_assoc, add_opp, add_zero. apply add_opp.
Qed.

Lemma zmul_of_nat n a : zmul (Z.of_nat n) a = nmul n a.
Proof.
  destruct n; [reflexivity|]. cbn [Z.of_nat zmul]. rewrite SuccNat2Pos.id_succ. reflexivity.
Qed.

Lemma zmul_opp_nat n a : zmul (- Z.of_nat n) a = opp (nmul n a).
Proof.
  destruct n; [cbn; symmetry; apply opp_zero|].
  cbn [Z.of_nat Z.opp zmul]. rewrite SuccNat2Pos.id_succ. reflexivity.
Qed.

Lemma zmul_succ z a : zmul (Z.succ z) a = add a (zmul z a).
Proof.
  destruct (Z_le_gt_dec 0 z) as [P|P].
  - rewrite <- (Z2Nat.id z P). rewrite <- Nat2Z.inj_succ, !zmul_of_nat. reflexivity.
  - set (n := Z.to_nat (- Z.succ z)).
    assert (E : z = - Z.of_nat (S n)) by (unfold n; lia).
    assert (E' : Z.succ z = - Z.of_nat n) by (unfold n; lia).
    rewrite E', zmul_opp_nat, E, zmul_opp_nat. cbn [nmul].
    rewrite opp_add, <- add_assoc, add_opp, add_comm, add_zero. reflexivity.
Qed.

Lemma zmul_pred z a : zmul (Z.pred z) a = add (opp a) (zmul z a).
Proof.
  rewrite <- (Z.succ_pred z) at 2. rewrite zmul_succ, <- add_assoc, (add_comm (opp a)), add_opp.
  rewrite add_comm, add_zero. reflexivity.
Qed.

Lemma zmul_0 a : zmul 0 a = zero.
Proof. reflexivity. Qed.

Lemma zmul_1 a : zmul 1 a = a.
Proof. change 1 with (Z.succ 0). rewrite zmul_succ. apply add_zero. Qed.

Lemma zmul_add x y a : zmul (x + y) a = add (zmul x a) (zmul y a).
Proof.
  revert x. apply Z.bi_induction.
  - intros u v E. unfold Z.eq in E. subst v. reflexivity.
  - rewrite Z.add_0_l, zmul_0, add_comm, add_zero. reflexivity.
  - intro n. split; intro H.
    + rewrite Z.add_succ_l, !zmul_succ, H, add_assoc. reflexivity.
    + rewrite Z.add_succ_l, !zmul_succ, add_assoc in H. apply add_cancel in H. exact H.
Qed.

Lemma zmul_opp x a : zmul (- x) a = opp (zmul x a).
Proof.
  apply opp_unique. rewrite <- zmul_add, Z.add_opp_diag_r. reflexivity.
Qed.

Lemma zmul_mul x y a : zmul (x * y) a = zmul x (zmul y a).
Proof.
  revert x. apply Z.bi_induction.
  - intros u v E. unfold Z.eq in E. subst v. reflexivity.
  - reflexivity.
  - intro n. rewrite Z.mul_succ_l, zmul_add, zmul_succ, (add_comm (zmul y a)). split; intro H.
    + rewrite H. reflexivity.
    + rewrite (add_comm _ (zmul y a)), (add_comm (zmul n _)) in H.
      first [apply add_cancel in H; exact H | rewrite (add_comm (zmul n (zmul y a))) in H; apply add_cancel in H; exact H].
Qed.

Lemma zmul_sum z a b : zmul z (add a b) = add (zmul z a) (zmul z b).
Proof.
  assert (S4 : forall a b c d, add (add a b) (add c d) = add (add a c) (add b d)).
  { intros. rewrite !add_assoc. f_equal. rewrite <- !add_assoc. f_equal. apply add_comm. }
  revert z. apply Z.bi_induction.
  - intros u v E. unfold Z.eq in E. subst v. reflexivity.
  - rewrite !zmul_0, add_zero. reflexivity.
  - intro n. rewrite !zmul_succ, S4. split; intro H.
    + rewrite H. reflexivity.
    + apply add_cancel in H. exact H.
Qed.

Lemma zmul_zero x : zmul x zero = zero.
Proof.
  revert x. apply Z.bi_induction.
  - intros u v E. unfold Z.eq in E. subst v. reflexivity.
  - reflexivity.
  - intro n. rewrite zmul_succ, add_comm, add_zero. reflexivity.
Qed.

(** multiples of an element of order [l] depend on the residue only *)
Lemma zmul_mod l a x : l <> 0 -> zmul l a = zero -> zmul (x mod l) a = zmul x a.
Proof.
  intros L E. rewrite (Z.div_mod x l L) at 2. rewrite Z.mul_comm.
  rewrite zmul_add, zmul_mul, E, zmul_zero, add_comm, add_zero. reflexivity.
Qed.
End Group.
