(** Proofs about bytes as polynomials, and AES as a permutation of the blocks. *)
From Coq Require Import Lia ZifyBool ZifyNat ZifyN Ring.
From Verif Require Import Base BaseFacts CfbModel CfbProofs AesSpec.

(** ** Bits *)
Lemma of_to : forall b, Byte.of_bits (Byte.to_bits b) = b.
Proof. intro b. apply Byte.of_bits_to_bits. Qed.
Lemma to_of : forall t, Byte.to_bits (Byte.of_bits t) = t.
Proof. intro t. apply Byte.to_bits_of_bits. Qed.

Lemma bits_of : forall b, exists b0 b1 b2 b3 b4 b5 b6 b7,
  b = Byte.of_bits (b0, (b1, (b2, (b3, (b4, (b5, (b6, b7))))))).
Proof.
  intro b. pose proof (of_to b) as E. destruct (Byte.to_bits b) as (b0 & b1 & b2 & b3 & b4 & b5 & b6 & b7).
  exists b0, b1, b2, b3, b4, b5, b6, b7. symmetry. exact E.
Qed.

Ltac bits b :=
  let E := fresh in
  destruct (bits_of b) as (? & ? & ? & ? & ? & ? & ? & ? & E); subst b.

Lemma padd_bits : forall a0 a1 a2 a3 a4 a5 a6 a7 b0 b1 b2 b3 b4 b5 b6 b7,
  padd (Byte.of_bits (a0, (a1, (a2, (a3, (a4, (a5, (a6, a7))))))))
       (Byte.of_bits (b0, (b1, (b2, (b3, (b4, (b5, (b6, b7)))))))) =
  Byte.of_bits (xorb a0 b0, (xorb a1 b1, (xorb a2 b2, (xorb a3 b3,
    (xorb a4 b4, (xorb a5 b5, (xorb a6 b6, xorb a7 b7))))))).
Proof. intros. unfold padd. rewrite !to_of. reflexivity. Qed.

Lemma xtime_bits : forall b0 b1 b2 b3 b4 b5 b6 b7,
  xtime (Byte.of_bits (b0, (b1, (b2, (b3, (b4, (b5, (b6, b7)))))))) =
  Byte.of_bits (b7, (xorb b0 b7, (b1, (xorb b2 b7, (xorb b3 b7, (b4, (b5, b6))))))).
Proof. intros. unfold xtime. rewrite !to_of. reflexivity. Qed.

Lemma bits_eq : forall a0 a1 a2 a3 a4 a5 a6 a7 b0 b1 b2 b3 b4 b5 b6 b7,
  a0 = b0 -> a1 = b1 -> a2 = b2 -> a3 = b3 -> a4 = b4 -> a5 = b5 -> a6 = b6 -> a7 = b7 ->
  Byte.of_bits (a0, (a1, (a2, (a3, (a4, (a5, (a6, a7))))))) = Byte.of_bits (b0, (b1, (b2, (b3, (b4, (b5, (b6, b7))))))).
Proof. intros. subst. reflexivity. Qed.

Definition bits0 : x00 = Byte.of_bits (false, (false, (false, (false, (false, (false, (false, false))))))) := eq_refl.

(** ** Addition *)
Lemma padd_assoc : forall a b c, padd a (padd b c) = padd (padd a b) c.
Proof. intros a b c. bits a. bits b. bits c. rewrite !padd_bits. apply bits_eq; ring. Qed.
Lemma padd_comm : forall a b, padd a b = padd b a.
Proof. intros a b. bits a. bits b. rewrite !padd_bits. apply bits_eq; ring. Qed.
Lemma padd_0_r : forall a, padd a x00 = a.
Proof. intros a. bits a. rewrite bits0, padd_bits. apply bits_eq; ring. Qed.
Lemma padd_0_l : forall a, padd x00 a = a.
Proof. intros. rewrite padd_comm. apply padd_0_r. Qed.
Lemma padd_self : forall a, padd a a = x00.
Proof. intros a. bits a. rewrite bits0, padd_bits. apply bits_eq; ring. Qed.
Lemma padd_cancel : forall a b, padd (padd a b) b = a.
Proof. intros. rewrite <- padd_assoc, padd_self. apply padd_0_r. Qed.

Lemma byte_all : forall (P : byte -> bool), forallb P (map n2b (map N.of_nat (seq 0 256))) = true -> forall b, P b = true.
Proof.
  intros P H b. rewrite forallb_forall in H. apply H. rewrite map_map.
  rewrite <- (n2b_b2n b). rewrite <- (N2Nat.id (b2n b)). apply (in_map (fun x => n2b (N.of_nat x))).
  apply in_seq. pose proof (b2n_lt b). lia.
Qed.

Lemma to_bits_n : forall b, let '(b0, (b1, (b2, (b3, (b4, (b5, (b6, b7))))))) := Byte.to_bits b in
  forall i, N.testbit (b2n b) i =
    match i with 0 => b0 | 1 => b1 | 2 => b2 | 3 => b3 | 4 => b4 | 5 => b5 | 6 => b6 | 7 => b7 | _ => false end%N.
Proof.
  intro b. pose proof (b2n_lt b) as L.
  assert (H : forall i, (8 <= i)%N -> N.testbit (b2n b) i = false).
  { intros i Hi. destruct (N.eq_dec (b2n b) 0) as [->|NZ]; [apply N.bits_0|].
    apply N.bits_above_log2. apply N.lt_le_trans with 8%N; [|exact Hi]. apply N.log2_lt_pow2; [lia|exact L]. }
  assert (G : (let '(b0, (b1, (b2, (b3, (b4, (b5, (b6, b7))))))) := Byte.to_bits b in
     N.testbit (b2n b) 0 = b0 /\ N.testbit (b2n b) 1 = b1 /\ N.testbit (b2n b) 2 = b2 /\ N.testbit (b2n b) 3 = b3 /\
     N.testbit (b2n b) 4 = b4 /\ N.testbit (b2n b) 5 = b5 /\ N.testbit (b2n b) 6 = b6 /\ N.testbit (b2n b) 7 = b7)%N)
    by (clear; destruct b; vm_compute; repeat split).
  destruct (Byte.to_bits b) as (b0 & b1 & b2 & b3 & b4 & b5 & b6 & b7). intro i.
  destruct G as (G0 & G1 & G2 & G3 & G4 & G5 & G6 & G7).
  destruct (N.le_gt_cases 8 i) as [Hi|Hi].
  - rewrite H by exact Hi. destruct i as [|p]; [lia|]. do 3 (destruct p; try reflexivity; try lia).
  - assert (C : (i = 0 \/ i = 1 \/ i = 2 \/ i = 3 \/ i = 4 \/ i = 5 \/ i = 6 \/ i = 7)%N) by lia.
    destruct C as [->|[->|[->|[->|[->|[->|[->| ->]]]]]]]; assumption.
Qed.

Lemma padd_bxor : forall a b, bxor a b = padd a b.
Proof.
  intros a b. apply b2n_inj. rewrite bxor_n. apply N.bits_inj. intro i. rewrite N.lxor_spec.
  pose proof (to_bits_n a) as A. pose proof (to_bits_n b) as B. pose proof (to_bits_n (padd a b)) as C.
  unfold padd in C at 1. bits a. bits b. rewrite padd_bits in *. rewrite !to_of in *.
  rewrite A, B, C. destruct i as [|p]; [reflexivity|]. do 3 (destruct p; try reflexivity).
Qed.

Lemma xor_n : forall a b, N.lxor (b2n a) (b2n b) = b2n (padd a b).
Proof. intros. rewrite <- padd_bxor. symmetry. apply bxor_n. Qed.

(** ** Inverses and the S-box *)
Definition inverse_ok (b : byte) : bool := Byte.eqb (pmul b (pinv b)) (if Byte.eqb b x00 then x00 else x01).
Lemma pinv_ok : forall b, b <> x00 -> pmul b (pinv b) = x01.
Proof.
  intros b Hb. pose proof (byte_all inverse_ok eq_refl b) as H.
  unfold inverse_ok in H. destruct (Byte.eqb b x00) eqn:E.
  - apply Byte.byte_dec_bl in E. contradiction.
  - apply Byte.byte_dec_bl in H. exact H.
Qed.

Lemma affine_back : forall b, inv_affine (affine b) = b.
Proof. intro b. bits b. unfold affine, inv_affine. rewrite !to_of. cbv beta zeta. apply bits_eq; ring. Qed.

Lemma pinv_pinv : forall b, pinv (pinv b) = b.
Proof.
  intro b. apply Byte.byte_dec_bl. revert b.
  exact (byte_all (fun b => Byte.eqb (pinv (pinv b)) b) eq_refl).
Qed.

Lemma inv_sbox_sbox : forall b, inv_sbox (sbox b) = b.
Proof. intro b. unfold inv_sbox, sbox. rewrite affine_back. apply pinv_pinv. Qed.

(** ** The steps are permutations of the states *)
Lemma xors_length : forall a b, length (xors a b) = Nat.min (length a) (length b).
Proof. induction a as [|x a IH]; intros [|y b]; cbn; auto. Qed.

Lemma xors_twice : forall a k, length a <= length k -> xors (xors a k) k = a.
Proof.
  induction a as [|x a IH]; intros [|y k] H; cbn in *; [reflexivity..|lia|].
  rewrite padd_cancel, IH by lia. reflexivity.
Qed.

Lemma sub_bytes_length : forall s, length (sub_bytes s) = length s.
Proof. intro s. apply map_length. Qed.
Lemma table_length : forall f, length (table f) = 16.
Proof. reflexivity. Qed.

Lemma sub_bytes_back : forall s, inv_sub_bytes (sub_bytes s) = s.
Proof. intro s. unfold inv_sub_bytes, sub_bytes. rewrite map_map. erewrite map_ext; [apply map_id|]. apply inv_sbox_sbox. Qed.

Lemma sixteen : forall s : bytes, length s = 16 ->
  exists a b c d e f g h i j k l m n o p, s = [a; b; c; d; e; f; g; h; i; j; k; l; m; n; o; p].
Proof.
  intros s H. do 16 (destruct s as [|? s]; [discriminate|]). destruct s; [|discriminate]. repeat eexists.
Qed.

Lemma shift_rows_back : forall s, length s = 16 -> inv_shift_rows (shift_rows s) = s.
Proof.
  intros s H. destruct (sixteen s H) as (a & b & c & d & e & f & g & h & i & j & k & l & m & n & o & p & ->).
  reflexivity.
Qed.

(** one column: the matrix of 5.3.3 times the matrix of 5.1.3 *)
Lemma mul1 : forall b, pmul x01 b = b.
Proof. intro b. change (pmul x01 b) with (padd b x00). apply padd_0_r. Qed.
Lemma mul2 : forall b, pmul x02 b = xtime b.
Proof. intro b. change (pmul x02 b) with (padd x00 (xtime (padd b x00))). rewrite padd_0_l, padd_0_r. reflexivity. Qed.
Lemma mul3 : forall b, pmul x03 b = padd b (xtime b).
Proof. intro b. change (pmul x03 b) with (padd b (xtime (padd b x00))). rewrite padd_0_r. reflexivity. Qed.
Lemma mul9 : forall b, pmul x09 b = padd b (xtime (xtime (xtime b))).
Proof.
  intro b. change (pmul x09 b) with (padd b (xtime (padd x00 (xtime (padd x00 (xtime (padd b x00))))))).
  rewrite padd_0_r, !padd_0_l. reflexivity.
Qed.
Lemma mul11 : forall b, pmul x0b b = padd b (xtime (padd b (xtime (xtime b)))).
Proof.
  intro b. change (pmul x0b b) with (padd b (xtime (padd b (xtime (padd x00 (xtime (padd b x00))))))).
  rewrite padd_0_r, !padd_0_l. reflexivity.
Qed.
Lemma mul13 : forall b, pmul x0d b = padd b (xtime (xtime (padd b (xtime b)))).
Proof.
  intro b. change (pmul x0d b) with (padd b (xtime (padd x00 (xtime (padd b (xtime (padd b x00))))))).
  rewrite padd_0_r, !padd_0_l. reflexivity.
Qed.
Lemma mul14 : forall b, pmul x0e b = xtime (padd b (xtime (padd b (xtime b)))).
Proof.
  intro b. change (pmul x0e b) with (padd x00 (xtime (padd b (xtime (padd b (xtime (padd b x00))))))).
  rewrite padd_0_r, !padd_0_l. reflexivity.
Qed.

Definition mixed (a b c d : byte) : byte := padd (pmul x02 a) (padd (pmul x03 b) (padd c d)).
Definition unmixed (a b c d : byte) : byte :=
  padd (pmul x0e a) (padd (pmul x0b b) (padd (pmul x0d c) (pmul x09 d))).
Lemma unmixed_mixed : forall a b c d,
  unmixed (mixed a b c d) (mixed b c d a) (mixed c d a b) (mixed d a b c) = a.
Proof.
  intros a b c d. unfold unmixed, mixed. rewrite mul14, mul11, mul13, mul9, !mul2, !mul3.
  bits a. bits b. bits c. bits d. repeat rewrite ?padd_bits, ?xtime_bits. apply bits_eq; ring.
Qed.

Lemma mix_columns_back : forall s, length s = 16 -> inv_mix_columns (mix_columns s) = s.
Proof.
  intros s H. destruct (sixteen s H) as (a & b & c & d & e & f & g & h & i & j & k & l & m & n & o & p & ->).
  transitivity [
    unmixed (mixed a b c d) (mixed b c d a) (mixed c d a b) (mixed d a b c);
    unmixed (mixed b c d a) (mixed c d a b) (mixed d a b c) (mixed a b c d);
    unmixed (mixed c d a b) (mixed d a b c) (mixed a b c d) (mixed b c d a);
    unmixed (mixed d a b c) (mixed a b c d) (mixed b c d a) (mixed c d a b);
    unmixed (mixed e f g h) (mixed f g h e) (mixed g h e f) (mixed h e f g);
    unmixed (mixed f g h e) (mixed g h e f) (mixed h e f g) (mixed e f g h);
    unmixed (mixed g h e f) (mixed h e f g) (mixed e f g h) (mixed f g h e);
    unmixed (mixed h e f g) (mixed e f g h) (mixed f g h e) (mixed g h e f);
    unmixed (mixed i j k l) (mixed j k l i) (mixed k l i j) (mixed l i j k);
    unmixed (mixed j k l i) (mixed k l i j) (mixed l i j k) (mixed i j k l);
    unmixed (mixed k l i j) (mixed l i j k) (mixed i j k l) (mixed j k l i);
    unmixed (mixed l i j k) (mixed i j k l) (mixed j k l i) (mixed k l i j);
    unmixed (mixed m n o p) (mixed n o p m) (mixed o p m n) (mixed p m n o);
    unmixed (mixed n o p m) (mixed o p m n) (mixed p m n o) (mixed m n o p);
    unmixed (mixed o p m n) (mixed p m n o) (mixed m n o p) (mixed n o p m);
    unmixed (mixed p m n o) (mixed m n o p) (mixed n o p m) (mixed o p m n)].
  - reflexivity.
  - rewrite !unmixed_mixed. reflexivity.
Qed.

(** ** The cipher is a permutation *)
Section Permutation.
  Variable nr : nat.
  Variable w : nat -> bytes.
  Hypothesis Hw : forall i, i <= nr -> length (round_key w i) = 16.

  Lemma add_key_length : forall i s, i <= nr -> length s = 16 -> length (add_round_key w i s) = 16.
  Proof. intros i s Hi H. unfold add_round_key. rewrite xors_length, H, Hw by exact Hi. reflexivity. Qed.
  Lemma add_key_twice : forall i s, i <= nr -> length s = 16 -> add_round_key w i (add_round_key w i s) = s.
  Proof. intros i s Hi H. unfold add_round_key. apply xors_twice. rewrite H, Hw by exact Hi. lia. Qed.

  Lemma rounds_length : forall n i s, n + i <= S nr -> length s = 16 -> length (cipher_rounds n i w s) = 16.
  Proof.
    induction n as [|n IH]; intros i s Hi H; cbn [cipher_rounds]; [exact H|].
    apply IH; [lia|]. apply add_key_length; [lia|apply table_length].
  Qed.

  Lemma rounds_last : forall n i s, cipher_rounds (S n) i w s =
    add_round_key w (n + i) (mix_columns (shift_rows (sub_bytes (cipher_rounds n i w s)))).
  Proof.
    induction n as [|n IH]; intros i s; [reflexivity|].
    change (cipher_rounds (S (S n)) i w s) with
      (cipher_rounds (S n) (S i) w (add_round_key w i (mix_columns (shift_rows (sub_bytes s))))).
    rewrite IH. replace (n + S i) with (S n + i) by lia. reflexivity.
  Qed.

  Lemma inv_rounds_back : forall n s, n <= nr -> length s = 16 ->
    inv_rounds n w (shift_rows (sub_bytes (cipher_rounds n 1 w s))) = shift_rows (sub_bytes s).
  Proof.
    induction n as [|n IH]; intros s Hn H; [reflexivity|]. cbn [inv_rounds].
    rewrite shift_rows_back, sub_bytes_back, rounds_last by (rewrite sub_bytes_length; apply rounds_length; [lia|exact H]).
    replace (n + 1) with (S n) by lia.
    rewrite add_key_twice by (first [lia|apply table_length]).
    rewrite mix_columns_back by apply table_length. apply IH; [lia|exact H].
  Qed.

  Lemma inv_cipher_cipher : forall s, length s = 16 -> inv_cipher nr w (cipher nr w s) = s.
  Proof.
    intros s H. unfold inv_cipher, cipher.
    rewrite add_key_twice by (first [lia|apply table_length]).
    rewrite inv_rounds_back by (first [lia|apply add_key_length; [lia|exact H]]).
    rewrite shift_rows_back by (rewrite sub_bytes_length; apply add_key_length; [lia|exact H]).
    rewrite sub_bytes_back. apply add_key_twice; [lia|exact H].
  Qed.

  Lemma cipher_length : forall s, length (cipher nr w s) = 16.
  Proof. intro s. unfold cipher. apply add_key_length; [lia|apply table_length]. Qed.
End Permutation.
