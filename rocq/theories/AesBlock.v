(** Proofs: the tables and words of crypto/aes compute the cipher of FIPS 197. *)
From Coq Require Import Lia ZifyBool ZifyNat ZifyN Ring.
From Verif Require Import Base BaseFacts Sha256 CfbModel CfbProofs AesModel AesSpec AesField.
Ltac Zify.zify_post_hook ::= Z.to_euclidean_division_equations.

(** ** Words of four bytes *)
Definition word (a b c d : byte) : N := (((b2n a * 256 + b2n b) * 256 + b2n c) * 256 + b2n d)%N.

Lemma lor_add : forall a b k, (b < 2 ^ k)%N -> N.lor (N.shiftl a k) b = (a * 2 ^ k + b)%N.
Proof.
  intros a b k Hb. rewrite <- N.shiftl_mul_pow2.
  assert (L : N.land (N.shiftl a k) b = 0%N).
  { apply N.bits_inj. intro i. rewrite N.land_spec, N.bits_0.
    destruct (N.le_gt_cases k i) as [H|H].
    - assert (N.testbit b i = false) as ->; [|apply Bool.andb_false_r].
      destruct (N.eq_dec b 0) as [->|NZ]; [apply N.bits_0|]. apply N.bits_above_log2.
      apply N.lt_le_trans with k; [|exact H]. apply N.log2_lt_pow2; [lia|exact Hb].
    - rewrite N.shiftl_spec_low by exact H. reflexivity. }
  rewrite N.add_nocarry_lxor by exact L. symmetry. apply N.lxor_lor. exact L.
Qed.

Lemma xor_add : forall a b c d k, (b < 2 ^ k)%N -> (d < 2 ^ k)%N ->
  N.lxor (a * 2 ^ k + b) (c * 2 ^ k + d) = (N.lxor a c * 2 ^ k + N.lxor b d)%N.
Proof.
  intros a b c d k Hb Hd. rewrite <- !N.shiftl_mul_pow2.
  assert (L : forall a b, (b < 2 ^ k)%N -> N.land (N.shiftl a k) b = 0%N).
  { clear. intros a b Hb. apply N.bits_inj. intro i. rewrite N.land_spec, N.bits_0.
    destruct (N.le_gt_cases k i) as [H|H].
    - assert (N.testbit b i = false) as ->; [|apply Bool.andb_false_r].
      destruct (N.eq_dec b 0) as [->|NZ]; [apply N.bits_0|]. apply N.bits_above_log2.
      apply N.lt_le_trans with k; [|exact H]. apply N.log2_lt_pow2; [lia|exact Hb].
    - rewrite N.shiftl_spec_low by exact H. reflexivity. }
  assert (X : (N.lxor b d < 2 ^ k)%N).
  { destruct (N.eq_dec (N.lxor b d) 0) as [->|NZ]; [apply N.neq_0_lt_0, N.pow_nonzero; lia|].
    apply N.log2_lt_pow2; [lia|].
    eapply N.le_lt_trans; [apply N.log2_lxor|].
    assert (K : (0 < k)%N).
    { destruct (N.eq_dec k 0) as [->|]; [|lia]. exfalso. apply NZ. cbn in Hb, Hd.
      replace b with 0%N by lia. replace d with 0%N by lia. reflexivity. }
    apply N.max_lub_lt.
    - destruct (N.eq_dec b 0) as [->|?]; [exact K|apply N.log2_lt_pow2; [lia|exact Hb]].
    - destruct (N.eq_dec d 0) as [->|?]; [exact K|apply N.log2_lt_pow2; [lia|exact Hd]]. }
  rewrite !N.add_nocarry_lxor by (apply L; assumption).
  rewrite N.shiftl_lxor, !N.lxor_assoc. f_equal.
  rewrite <- !N.lxor_assoc. f_equal. apply N.lxor_comm.
Qed.

Lemma word_xor : forall a b c d a' b' c' d',
  N.lxor (word a b c d) (word a' b' c' d') = word (padd a a') (padd b b') (padd c c') (padd d d').
Proof.
  intros. unfold word. change 256%N with (2 ^ 8)%N.
  rewrite !xor_add, !xor_n; [reflexivity|..]; apply b2n_lt.
Qed.

Lemma low_byte : forall w s, N.land (N.shiftr w s) 255 = ((w / 2 ^ s) mod 256)%N.
Proof. intros. rewrite N.shiftr_div_pow2. exact (N.land_ones (w / 2 ^ s) 8). Qed.

Lemma word_24 : forall a b c d, N.land (N.shiftr (word a b c d) 24) 255 = b2n a.
Proof.
  intros. rewrite low_byte. unfold word. change (2 ^ 24)%N with 16777216%N.
  pose proof (b2n_lt a). pose proof (b2n_lt b). pose proof (b2n_lt c). pose proof (b2n_lt d). lia.
Qed.
Lemma word_16 : forall a b c d, N.land (N.shiftr (word a b c d) 16) 255 = b2n b.
Proof.
  intros. rewrite low_byte. unfold word. change (2 ^ 16)%N with 65536%N.
  pose proof (b2n_lt a). pose proof (b2n_lt b). pose proof (b2n_lt c). pose proof (b2n_lt d). lia.
Qed.
Lemma word_8 : forall a b c d, N.land (N.shiftr (word a b c d) 8) 255 = b2n c.
Proof.
  intros. rewrite low_byte. unfold word. change (2 ^ 8)%N with 256%N.
  pose proof (b2n_lt a). pose proof (b2n_lt b). pose proof (b2n_lt c). pose proof (b2n_lt d). lia.
Qed.
Lemma word_0 : forall a b c d, N.land (N.shiftr (word a b c d) 0) 255 = b2n d.
Proof.
  intros. rewrite low_byte. unfold word. change (2 ^ 0)%N with 1%N.
  pose proof (b2n_lt a). pose proof (b2n_lt b). pose proof (b2n_lt c). pose proof (b2n_lt d). lia.
Qed.

Lemma n2b_low : forall n, n2b n = n2b (N.land n 255).
Proof. intro n. apply b2n_inj. rewrite !b2n_n2b. change (N.land n 255) with (N.land n (N.ones 8)). rewrite N.land_ones. change (2 ^ 8)%N with 256%N. rewrite N.mod_mod by lia. reflexivity. Qed.

Lemma put_word : forall a b c d, put_uint32 (word a b c d) = [a; b; c; d].
Proof.
  intros. unfold put_uint32.
  rewrite (n2b_low (N.shiftr _ 24)), (n2b_low (N.shiftr _ 16)), (n2b_low (N.shiftr _ 8)), (n2b_low (word a b c d)).
  rewrite word_24, word_16, word_8.
  replace (N.land (word a b c d) 255) with (b2n d) by (rewrite <- (N.shiftr_0_r (word a b c d)); symmetry; apply word_0).
  rewrite !n2b_b2n. reflexivity.
Qed.

Lemma lor_word : forall a b c d,
  N.lor (N.lor (N.lor (N.shiftl (b2n a) 24) (N.shiftl (b2n b) 16)) (N.shiftl (b2n c) 8)) (b2n d) = word a b c d.
Proof.
  intros. pose proof (b2n_lt a). pose proof (b2n_lt b). pose proof (b2n_lt c). pose proof (b2n_lt d).
  rewrite <- !N.lor_assoc.
  rewrite (lor_add (b2n c) (b2n d) 8) by assumption.
  rewrite (lor_add (b2n b) _ 16) by (change (2 ^ 8)%N with 256%N; change (2 ^ 16)%N with 65536%N; lia).
  rewrite (lor_add (b2n a) _ 24) by (change (2 ^ 8)%N with 256%N; change (2 ^ 16)%N with 65536%N; change (2 ^ 24)%N with 16777216%N; lia).
  unfold word. change (2 ^ 8)%N with 256%N; change (2 ^ 16)%N with 65536%N; change (2 ^ 24)%N with 16777216%N. lia.
Qed.

Lemma be_word : forall b i, be_uint32 b i =
  word (nth i b x00) (nth (i + 1) b x00) (nth (i + 2) b x00) (nth (i + 3) b x00).
Proof.
  intros. unfold be_uint32. rewrite <- lor_word, Nat.add_0_r.
  rewrite (N.lor_comm (N.lor (N.lor _ _) _) (N.shiftl _ 24)).
  rewrite (N.lor_comm (N.lor _ _) (N.shiftl _ 16)), (N.lor_comm (b2n _) (N.shiftl _ 8)).
  rewrite !N.lor_assoc. reflexivity.
Qed.

Lemma rot_of_word : forall a b c d, rotw (word a b c d) = word b c d a.
Proof.
  intros. unfold rotw. pose proof (b2n_lt a). pose proof (b2n_lt b). pose proof (b2n_lt c). pose proof (b2n_lt d).
  change 0xffffffff%N with (N.ones 32). rewrite N.land_ones, N.shiftr_div_pow2, N.shiftl_mul_pow2.
  assert (E : ((word a b c d * 2 ^ 8) mod 2 ^ 32 = N.shiftl ((b2n b * 256 + b2n c) * 256 + b2n d) 8)%N).
  { rewrite N.shiftl_mul_pow2. unfold word. change (2 ^ 8)%N with 256%N. change (2 ^ 32)%N with 4294967296%N. lia. }
  assert (F : (word a b c d / 2 ^ 24 = b2n a)%N).
  { unfold word. change (2 ^ 24)%N with 16777216%N. lia. }
  rewrite E, F, lor_add by assumption. reflexivity.
Qed.

(** ** Tables *)
Lemma nth_table : forall (P : N -> byte -> bool) (t : list N),
  forallb (fun b => P (nth (N.to_nat (b2n b)) t 0%N) b) (map n2b (map N.of_nat (seq 0 256))) = true ->
  forall b, P (nth (N.to_nat (b2n b)) t 0%N) b = true.
Proof. intros P t H. exact (byte_all (fun b => P (nth (N.to_nat (b2n b)) t 0%N) b) H). Qed.

Lemma at_sbox : forall b, nth (N.to_nat (b2n b)) sbox0 0%N = b2n (sbox b).
Proof. intro b. apply N.eqb_eq. exact (nth_table (fun x b => N.eqb x (b2n (sbox b))) sbox0 eq_refl b). Qed.
Lemma at_te0 : forall b, nth (N.to_nat (b2n b)) te0 0%N = word (pmul x02 (sbox b)) (sbox b) (sbox b) (pmul x03 (sbox b)).
Proof.
  intro b. apply N.eqb_eq.
  exact (nth_table (fun x b => let s := sbox b in N.eqb x (word (pmul x02 s) s s (pmul x03 s))) te0 eq_refl b).
Qed.
Lemma at_te1 : forall b, nth (N.to_nat (b2n b)) te1 0%N = word (pmul x03 (sbox b)) (pmul x02 (sbox b)) (sbox b) (sbox b).
Proof.
  intro b. apply N.eqb_eq.
  exact (nth_table (fun x b => let s := sbox b in N.eqb x (word (pmul x03 s) (pmul x02 s) s s)) te1 eq_refl b).
Qed.
Lemma at_te2 : forall b, nth (N.to_nat (b2n b)) te2 0%N = word (sbox b) (pmul x03 (sbox b)) (pmul x02 (sbox b)) (sbox b).
Proof.
  intro b. apply N.eqb_eq.
  exact (nth_table (fun x b => let s := sbox b in N.eqb x (word s (pmul x03 s) (pmul x02 s) s)) te2 eq_refl b).
Qed.
Lemma at_te3 : forall b, nth (N.to_nat (b2n b)) te3 0%N = word (sbox b) (sbox b) (pmul x03 (sbox b)) (pmul x02 (sbox b)).
Proof.
  intro b. apply N.eqb_eq.
  exact (nth_table (fun x b => let s := sbox b in N.eqb x (word s s (pmul x03 s) (pmul x02 s))) te3 eq_refl b).
Qed.

Lemma at_powx : forall i, 1 <= i <= 16 -> nth (i - 1) powx 0%N = b2n (Nat.iter (i - 1) xtime x01).
Proof. intros i Hi. do 17 (destruct i as [|i]; [first [lia|reflexivity]|]). lia. Qed.

(** ** Rounds *)
Definition word_of (s : bytes) : N := word (nth 0 s x00) (nth 1 s x00) (nth 2 s x00) (nth 3 s x00).
Definition words_of (s : bytes) : words :=
  Words (word (nth 0 s x00) (nth 1 s x00) (nth 2 s x00) (nth 3 s x00))
        (word (nth 4 s x00) (nth 5 s x00) (nth 6 s x00) (nth 7 s x00))
        (word (nth 8 s x00) (nth 9 s x00) (nth 10 s x00) (nth 11 s x00))
        (word (nth 12 s x00) (nth 13 s x00) (nth 14 s x00) (nth 15 s x00)).

Lemma four : forall s : bytes, length s = 4 -> exists a b c d, s = [a; b; c; d].
Proof.
  intros s H. do 4 (destruct s as [|? s]; [discriminate|]). destruct s; [|discriminate]. repeat eexists.
Qed.

Ltac pac :=
  repeat match goal with |- context [pmul ?x ?y] => generalize (pmul x y); intro end;
  repeat match goal with b : byte |- _ => bits b end;
  rewrite !padd_bits; apply bits_eq; ring.

Lemma te_word : forall k a b c d e f g h i j l m n o p q k0 k1 k2 k3, k = word k0 k1 k2 k3 ->
  xor4 k (at_byte te0 (word a b c d) 24) (at_byte te1 (word e f g h) 16)
         (at_byte te2 (word i j l m) 8) (at_byte te3 (word n o p q) 0) =
  word (padd (mixed (sbox a) (sbox f) (sbox l) (sbox q)) k0) (padd (mixed (sbox f) (sbox l) (sbox q) (sbox a)) k1)
       (padd (mixed (sbox l) (sbox q) (sbox a) (sbox f)) k2) (padd (mixed (sbox q) (sbox a) (sbox f) (sbox l)) k3).
Proof.
  intros k a b c d e f g h i j l m n o p q k0 k1 k2 k3 ->. unfold xor4, at_byte, mixed.
  rewrite word_24, word_16, word_8, word_0, at_te0, at_te1, at_te2, at_te3, !word_xor.
  generalize (sbox a) (sbox f) (sbox l) (sbox q). intros A F L Q.
  clear. f_equal; pac.
Qed.

Local Opaque padd pmul sbox word.

Lemma te_round : forall xk w r s, length s = 16 ->
  (forall j, j < 4 -> length (w (4 * r + j)) = 4 /\ nth (4 * r + j) xk 0%N = word_of (w (4 * r + j))) ->
  middle_round xk (4 * r) (words_of s) = words_of (add_round_key w r (mix_columns (shift_rows (sub_bytes s)))).
Proof.
  intros xk w r s Hs Hk.
  destruct (sixteen s Hs) as (a & b & c & d & e & f & g & h & i & j & k & l & m & n & o & p & ->).
  destruct (Hk 0 ltac:(lia)) as [L0 K0]. destruct (Hk 1 ltac:(lia)) as [L1 K1].
  destruct (Hk 2 ltac:(lia)) as [L2 K2]. destruct (Hk 3 ltac:(lia)) as [L3 K3]. clear Hk.
  unfold add_round_key, round_key. rewrite Nat.add_0_r in *.
  destruct (four _ L0) as (p0 & p1 & p2 & p3 & E0). destruct (four _ L1) as (q0 & q1 & q2 & q3 & E1).
  destruct (four _ L2) as (r0 & r1 & r2 & r3 & E2). destruct (four _ L3) as (t0 & t1 & t2 & t3 & E3).
  rewrite E0, E1, E2, E3 in *.
  unfold middle_round, words_of. cbn [nth]. rewrite Nat.add_0_r.
  rewrite (te_word _ a b c d e f g h i j k l m n o p _ _ _ _ K0).
  rewrite (te_word _ e f g h i j k l m n o p a b c d _ _ _ _ K1).
  rewrite (te_word _ i j k l m n o p a b c d e f g h _ _ _ _ K2).
  rewrite (te_word _ m n o p a b c d e f g h i j k l _ _ _ _ K3).
  reflexivity.
Qed.

Lemma sbox_of_words : forall a b c d e f g h i j l m n o p q,
  sbox_word (word a b c d) (word e f g h) (word i j l m) (word n o p q) = word (sbox a) (sbox f) (sbox l) (sbox q).
Proof.
  intros. unfold sbox_word, at_byte. rewrite word_24, word_16, word_8, word_0, !at_sbox. apply lor_word.
Qed.

Definition is_key (xk : list N) (w : nat -> bytes) (n : nat) : Prop :=
  forall i, i < n -> length (w i) = 4 /\ nth i xk 0%N = word_of (w i).

Lemma te_rounds : forall xk w n r s, length s = 16 -> is_key xk w (4 * (n + r)) ->
  middle_rounds n xk (4 * r) (words_of s) = (words_of (cipher_rounds n r w s), 4 * (n + r)).
Proof.
  intros xk w. induction n as [|n IH]; intros r s Hs Hk; [reflexivity|]. cbn [middle_rounds cipher_rounds].
  rewrite (te_round xk w r s Hs) by (intros j Hj; apply Hk; lia).
  replace (4 * r + 4) with (4 * S r) by lia. rewrite IH.
  - f_equal. lia.
  - unfold add_round_key. rewrite xors_length. change (length (mix_columns _)) with 16.
    unfold round_key. rewrite !app_length.
    rewrite (proj1 (Hk (4 * r) ltac:(lia))), (proj1 (Hk (4 * r + 1) ltac:(lia))), (proj1 (Hk (4 * r + 2) ltac:(lia))), (proj1 (Hk (4 * r + 3) ltac:(lia))).
    reflexivity.
  - replace (n + S r) with (S n + r) by lia. exact Hk.
Qed.

Lemma round_key_length : forall xk w n i, is_key xk w n -> 4 * i + 3 < n -> length (round_key w i) = 16.
Proof.
  intros xk w n i Hk Hi. unfold round_key. rewrite !app_length.
  rewrite (proj1 (Hk (4 * i) ltac:(lia))), (proj1 (Hk (4 * i + 1) ltac:(lia))), (proj1 (Hk (4 * i + 2) ltac:(lia))), (proj1 (Hk (4 * i + 3) ltac:(lia))).
  reflexivity.
Qed.

Lemma block_cipher : forall xk w nr s, length s = 16 -> length xk = 4 * (nr + 1) -> 0 < nr -> is_key xk w (4 * (nr + 1)) ->
  encrypt_block_go xk s = cipher nr w s.
Proof.
  intros xk w nr s Hs Hx Hn Hk. unfold encrypt_block_go.
  assert (F : Words (N.lxor (be_uint32 s 0) (nth 0 xk 0%N)) (N.lxor (be_uint32 s 4) (nth 1 xk 0%N))
                    (N.lxor (be_uint32 s 8) (nth 2 xk 0%N)) (N.lxor (be_uint32 s 12) (nth 3 xk 0%N)) =
              words_of (add_round_key w 0 s)).
  { destruct (sixteen s Hs) as (a & b & c & d & e & f & g & h & i & j & k & l & m & n & o & p & ->).
    destruct (Hk 0 ltac:(lia)) as [L0 K0]. destruct (Hk 1 ltac:(lia)) as [L1 K1].
    destruct (Hk 2 ltac:(lia)) as [L2 K2]. destruct (Hk 3 ltac:(lia)) as [L3 K3].
    unfold add_round_key, round_key. cbn [Nat.mul Nat.add] in *.
    destruct (four _ L0) as (p0 & p1 & p2 & p3 & E0). destruct (four _ L1) as (q0 & q1 & q2 & q3 & E1).
    destruct (four _ L2) as (r0 & r1 & r2 & r3 & E2). destruct (four _ L3) as (t0 & t1 & t2 & t3 & E3).
    rewrite E0, E1, E2, E3 in *. rewrite !be_word, K0, K1, K2, K3. unfold word_of. cbn [nth Nat.add].
    rewrite !word_xor. reflexivity. }
  rewrite F. replace (length xk / 4 - 2) with (nr - 1) by (rewrite Hx; lia).
  assert (RL : forall i, i <= nr -> length (round_key w i) = 16) by (intros i Hi; apply (round_key_length _ _ _ _ Hk); lia).
  assert (A : length (add_round_key w 0 s) = 16) by (apply (add_key_length nr w RL); [lia|exact Hs]).
  change 4 with (4 * 1) at 1.
  rewrite (te_rounds xk w (nr - 1) 1 _ A) by (intros i Hi; apply Hk; lia).
  replace (4 * (nr - 1 + 1)) with (4 * nr) by lia.
  unfold cipher.
  assert (B : length (cipher_rounds (nr - 1) 1 w (add_round_key w 0 s)) = 16) by (apply (rounds_length nr w RL); [lia|exact A]).
  revert B. generalize (cipher_rounds (nr - 1) 1 w (add_round_key w 0 s)). intros t B. clear - B Hk.
  destruct (sixteen t B) as (a & b & c & d & e & f & g & h & i & j & k & l & m & n & o & p & ->).
  destruct (Hk (4 * nr + 0) ltac:(lia)) as [L0 K0]. destruct (Hk (4 * nr + 1) ltac:(lia)) as [L1 K1].
  destruct (Hk (4 * nr + 2) ltac:(lia)) as [L2 K2]. destruct (Hk (4 * nr + 3) ltac:(lia)) as [L3 K3]. clear Hk.
  unfold add_round_key, round_key. rewrite Nat.add_0_r in *.
  destruct (four _ L0) as (p0 & p1 & p2 & p3 & E0). destruct (four _ L1) as (q0 & q1 & q2 & q3 & E1).
  destruct (four _ L2) as (r0 & r1 & r2 & r3 & E2). destruct (four _ L3) as (t0 & t1 & t2 & t3 & E3).
  rewrite E0, E1, E2, E3 in *. rewrite K0, K1, K2, K3. unfold words_of, word_of. cbn [nth].
  rewrite !sbox_of_words, !word_xor, !put_word. reflexivity.
Qed.
