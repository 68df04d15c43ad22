(** The scalars of the code can be cancelled. *)
From Coq Require Import Lia ZifyBool ZifyNat ZifyN Znumtheory.
From Verif Require Import Base BaseFacts Primes25519 LittleEndian Edwards25519Model SignModel SignSpec Ed25519Curve.
Local Open Scope Z_scope.

Lemma cancel_zero : forall a b, scalar_reduced a -> scalar_reduced b -> (l25519 | le_val a - le_val b) -> a = b.
Proof.
  intros a b A B [q D]. apply reduced_eq; [exact A|exact B|]. replace (le_val a) with (le_val b + q * l25519) by lia. apply Z.mod_add. discriminate.
Qed.
Lemma scalar_mul_cancel : forall e e' x, scalar_reduced e -> scalar_reduced e' -> scalar_reduced x -> x <> scalar_zero -> scalar_mul e x = scalar_mul e' x -> e = e'.
Proof.
  intros e e' x E E' X N H. assert (L0 : l25519 <> 0) by discriminate. apply cancel_zero; [exact E|exact E'|].
  apply (f_equal le_val) in H. unfold scalar_mul in H. rewrite !scalar_of_val in H.
  assert (D : (l25519 | (le_val e - le_val e') * le_val x)).
  { apply Z.mod_divide; [exact L0|]. replace ((le_val e - le_val e') * le_val x) with (le_val e * le_val x - le_val e' * le_val x) by ring.
    rewrite Zminus_mod, H, Z.sub_diag. reflexivity. }
  apply prime_mult in D; [|exact l25519_prime]. destruct D as [D|D]; [exact D|]. exfalso. apply N.
  apply cancel_zero; [exact X| |].
  - split; [reflexivity|]. rewrite scalar_zero_val. reflexivity.
  - rewrite scalar_zero_val. replace (le_val x - 0) with (le_val x) by ring. exact D.
Qed.
Lemma scalar_add_cancel : forall s a b, scalar_reduced s -> scalar_reduced a -> scalar_reduced b -> scalar_add s a = scalar_add s b -> a = b.
Proof.
  intros s a b S A B H. assert (L0 : l25519 <> 0) by discriminate. apply cancel_zero; [exact A|exact B|].
  apply (f_equal le_val) in H. unfold scalar_add in H. rewrite !scalar_of_val in H.
  apply Z.mod_divide; [exact L0|]. replace (le_val a - le_val b) with ((le_val s + le_val a) - (le_val s + le_val b)) by ring.
  rewrite Zminus_mod, H, Z.sub_diag. reflexivity.
Qed.
