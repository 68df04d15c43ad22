(** Facts on the little endian numbers of Edwards25519Model. *)
From Coq Require Import Lia ZifyBool ZifyNat ZifyN.
From Verif Require Import Base BaseFacts Edwards25519Model.
Local Open Scope Z_scope.

Lemma b2z_range b : 0 <= b2z b < 256.
Proof. unfold b2z. pose proof (b2n_lt b). lia. Qed.

Lemma b2z_z2b z : b2z (z2b z) = z mod 256.
Proof.
  unfold b2z, z2b. rewrite b2n_n2b. pose proof (Z.mod_pos_bound z 256 eq_refl).
  rewrite N.mod_small by lia. lia.
Qed.

Lemma z2b_b2z b : z2b (b2z b) = b.
Proof.
  unfold z2b. rewrite Z.mod_small by apply b2z_range. unfold b2z. rewrite N2Z.id. apply n2b_b2n.
Qed.

Lemma b2z_inj a b : b2z a = b2z b -> a = b.
Proof. intro E. rewrite <- (z2b_b2z a), <- (z2b_b2z b), E. reflexivity. Qed.

Lemma z2b_mod z : z2b (z mod 256) = z2b z.
Proof. unfold z2b. rewrite Z.mod_mod by discriminate. reflexivity. Qed.

Definition p256 (n : nat) : Z := 256 ^ Z.of_nat n.

Lemma p256_S n : p256 (S n) = 256 * p256 n.
Proof. unfold p256. rewrite Nat2Z.inj_succ, Z.pow_succ_r by lia. reflexivity. Qed.

Lemma p256_pos n : 0 < p256 n.
Proof. unfold p256. apply Z.pow_pos_nonneg; lia. Qed.

Lemma le_val_range b : 0 <= le_val b < p256 (length b).
Proof.
  induction b as [|x b IH]; cbn [le_val length].
  - split; [lia|reflexivity].
  - rewrite p256_S. pose proof (b2z_range x). lia.
Qed.

Lemma le_bytes_length n z : length (le_bytes n z) = n.
Proof. revert z. induction n; intro z; cbn [le_bytes length]; [reflexivity|]. rewrite IHn. reflexivity. Qed.

Lemma le_val_bytes n z : le_val (le_bytes n z) = z mod p256 n.
Proof.
  revert z. induction n; intro z; cbn [le_bytes le_val].
  - unfold p256. cbn. symmetry. apply Z.mod_1_r.
  - rewrite b2z_z2b, IHn, p256_S. rewrite Z.rem_mul_r by (pose proof (p256_pos n); lia). reflexivity.
Qed.

Lemma le_bytes_val b : le_bytes (length b) (le_val b) = b.
Proof.
  induction b as [|x b IH]; cbn [length le_bytes le_val]; [reflexivity|].
  pose proof (b2z_range x).
  replace ((b2z x + 256 * le_val b) / 256) with (le_val b)
    by (rewrite Z.mul_comm, Z.div_add, Z.div_small by lia; lia).
  rewrite IH. f_equal.
  rewrite <- z2b_mod. rewrite Z.mul_comm, Z.mod_add, Z.mod_small by lia. apply z2b_b2z.
Qed.

Lemma le_bytes_small n z : 0 <= z < p256 n -> le_val (le_bytes n z) = z.
Proof. intro H. rewrite le_val_bytes. apply Z.mod_small. exact H. Qed.

Lemma le_bytes_val_n n b : length b = n -> le_bytes n (le_val b) = b.
Proof. intro E. subst n. apply le_bytes_val. Qed.

Lemma le_val_inj a b : length a = length b -> le_val a = le_val b -> a = b.
Proof. intros L E. rewrite <- (le_bytes_val a), <- (le_bytes_val b), L, E. reflexivity. Qed.

Lemma le_bytes_mod n z : le_bytes n (z mod p256 n) = le_bytes n z.
Proof.
  apply le_val_inj; [rewrite !le_bytes_length; reflexivity|].
  rewrite !le_val_bytes. apply Z.mod_mod. pose proof (p256_pos n). lia.
Qed.

Lemma le_val_app a b : le_val (a ++ b) = le_val a + p256 (length a) * le_val b.
Proof.
  induction a as [|x a IH]; cbn [app le_val length].
  - change (p256 0) with 1. lia.
  - rewrite IH, p256_S. ring.
Qed.

Lemma p256_32 : p256 32 = 2 ^ 256.
Proof. reflexivity. Qed.
