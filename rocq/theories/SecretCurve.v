(** The laws of subtraction hold of the scalars of the code. *)
From Coq Require Import Lia ZifyBool ZifyNat ZifyN.
From Verif Require Import Base BaseFacts Primes25519 LittleEndian Edwards25519Model SignModel SignSpec Ed25519Curve SecretSpec.
Local Open Scope Z_scope.

Lemma ed25519_scalars : ScalarLaws ed25519 scalar_reduced scalar_zero scalar_add.
Proof.
  assert (L0 : l25519 <> 0) by discriminate.
  constructor; cbn [ed25519 Sc ssub smul].
  - intros k a b K A B. apply reduced_eq; [apply scalar_of_reduced|apply scalar_of_reduced|].
    unfold scalar_sub. rewrite !scalar_of_val, !Z.mod_mod by exact L0. rewrite <- Zminus_mod. f_equal. lia.
  - intros a b x A B X. apply reduced_eq; [apply scalar_of_reduced|apply scalar_of_reduced|].
    unfold scalar_sub, scalar_mul. rewrite !scalar_of_val, !Z.mod_mod by exact L0. rewrite <- Zminus_mod, Z.mul_mod_idemp_l by exact L0. f_equal. lia.
  - intros a b A B H. apply (f_equal le_val) in H. unfold scalar_sub in H. rewrite scalar_of_val, scalar_zero_val in H.
    apply reduced_eq; [exact A|exact B|]. apply Z.mod_divide in H; [|exact L0]. destruct H as [q H].
    replace (le_val a) with (le_val b + q * l25519) by lia. apply Z.mod_add. exact L0.
  - intros s a S A. split; [apply scalar_of_reduced|]. apply reduced_eq; [apply scalar_of_reduced|exact S|].
    unfold scalar_add, scalar_sub. rewrite !scalar_of_val, Z.mod_mod, Zminus_mod_idemp_l by exact L0. f_equal. lia.
Qed.
