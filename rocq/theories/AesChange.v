(** Proofs: what a change of an encrypted text does to the message. *)
From Coq Require Import Lia ZifyBool ZifyNat ZifyN.
From Verif Require Import Base BaseFacts Sha256 CfbModel CfbProofs AesModel AesSpec AesField AesBlock AesKey AesCfb.
Local Opaque padd pmul sbox encrypt_block_go expand_key_go sha_256.

Lemma xors_nth : forall a k j x y, nth_error a j = Some x -> nth_error k j = Some y -> nth_error (xors a k) j = Some (padd x y).
Proof.
  induction a as [|p a IH]; intros [|q k] [|j] x y H K; cbn [nth_error xors] in *; try discriminate; [congruence|]. apply IH; assumption.
Qed.
Lemma nth_skip : forall A n j (l : list A), nth_error (skipn n l) j = nth_error l (n + j).
Proof. intros A n. induction n as [|n IH]; intros j [|x l]; cbn [skipn Nat.add nth_error]; try reflexivity; [destruct j; reflexivity|apply IH]. Qed.
Lemma nth_cut : forall A n j (l : list A), j < n -> nth_error (firstn n l) j = nth_error l j.
Proof. intros A n. induction n as [|n IH]; intros [|j] [|x l] H; cbn [firstn nth_error]; try lia; try reflexivity. apply IH. lia. Qed.
Lemma nth_ext_cut : forall A (l l' : list A) a n, (forall q, a <= q < a + n -> nth_error l q = nth_error l' q) -> firstn n (skipn a l) = firstn n (skipn a l').
Proof.
  intros A l l' a n. revert a. induction n as [|n IH]; intros a H; [reflexivity|].
  assert (S : forall k : list A, firstn (S n) (skipn a k) = match nth_error k a with Some x => x :: firstn n (skipn (S a) k) | None => [] end).
  { intro k. clear. revert a. induction k as [|x k IH]; intros [|a]; cbn [skipn nth_error]; try reflexivity. rewrite IH. reflexivity. }
  rewrite !S, (H a) by lia. destruct (nth_error l' a); [|reflexivity]. f_equal. apply IH. intros q L. apply H. lia.
Qed.

Lemma nth_same : forall A (l l' : list A), (forall j, nth_error l j = nth_error l' j) -> l = l'.
Proof.
  intros A l. induction l as [|x l IH]; intros [|y l'] H; [reflexivity|specialize (H 0); discriminate H..|].
  pose proof (H 0) as H0. cbn [nth_error] in H0. injection H0 as ->. f_equal. apply IH. intro j. exact (H (S j)).
Qed.

Section Bytes.
  Variable enc : bytes -> bytes.
  Hypothesis enc_length : forall b, length b = 16 -> length (enc b) = 16.
  Variable key : bytes.
  (** each byte of the message: that of the text, and one of the encrypted sixteen before its block *)
  Lemma dec_byte : forall n next c j x, length c <= n -> length next = 16 -> nth_error c j = Some x ->
    exists y, nth_error (enc (firstn 16 (skipn (16 * (j / 16)) (next ++ c)))) (j mod 16) = Some y /\
      nth_error (cfb (fun _ => enc) true key [] next c) j = Some (padd x y).
  Proof.
    induction n as [|n IH]; intros next c j x L Hn N.
    - destruct c; [destruct j; discriminate N|cbn [length] in L; lia].
    - rewrite (cfb_start enc enc_length key) by exact Hn. pose proof (enc_length next Hn) as Le.
      assert (J : j < length c) by (apply nth_error_Some; rewrite N; discriminate).
      destruct (Nat.lt_ge_cases j 16) as [S|S].
      + rewrite Nat.div_small, Nat.mod_small by exact S. rewrite Nat.mul_0_r, skipn_O.
        rewrite firstn_app, Hn, Nat.sub_diag, firstn_O, app_nil_r, firstn_all2 by lia.
        destruct (nth_error (enc next) j) as [y|] eqn:Y; [|apply nth_error_None in Y; lia].
        exists y. split; [reflexivity|]. rewrite nth_error_app1; [apply xors_nth; assumption|].
        rewrite xors_length. lia.
      + rewrite nth_error_app2 by (rewrite xors_length; lia). rewrite xors_length, Le, Nat.min_r by lia.
        assert (F : length (firstn 16 c) = 16) by (rewrite firstn_length; lia).
        destruct (IH (firstn 16 c) (skipn 16 c) (j - 16) x) as (y & Y & Q).
        * rewrite skipn_length. lia.
        * exact F.
        * rewrite nth_skip. replace (16 + (j - 16)) with j by lia. exact N.
        * exists y. split; [|exact Q]. rewrite firstn_skipn in Y.
          replace ((j - 16) mod 16) with (j mod 16) in Y by lia.
          replace (16 * ((j - 16) / 16)) with (16 * (j / 16) - 16) in Y by lia.
          rewrite <- Y. f_equal. f_equal. f_equal.
          replace (16 * (j / 16)) with (length next + (16 * (j / 16) - 16)) at 1 by lia.
          rewrite skipn_app, skipn_all2 by lia. cbn [app]. f_equal. lia.
  Qed.
  Lemma dec_length : forall c ks next, length (cfb (fun _ => enc) true key ks next c) = length c.
  Proof. induction c as [|p c IH]; intros ks next; [reflexivity|]. cbn [cfb]. destruct ks; cbn [length]; rewrite IH; reflexivity. Qed.
End Bytes.

Lemma decrypted : forall pw t, 16 <= length t ->
  go_decrypt pw (b64_encode t) = Some (Ok (cfb (fun _ => encrypt_block_go (expand_key_go (sha_256 pw))) true (sha_256 pw) [] (firstn 16 t) (skipn 16 t))).
Proof.
  intros pw t L. rewrite go_decrypt_model. unfold decrypt. rewrite b64_decode_encode. cbn [rbind].
  destruct (Nat.ltb_spec (length t) 16); [lia|]. rewrite go_cfb. reflexivity.
Qed.
Lemma some_ok : forall A (a b : A), Some (Ok a) = Some (Ok b) -> a = b.
Proof. intros A a b H. congruence. Qed.
Lemma shift_difference : forall x x' y, padd (padd x y) (padd x x') = padd x' y.
Proof.
  intros x x' y. rewrite (padd_comm x y), padd_assoc, <- (padd_assoc y x x), padd_self, padd_0_r. apply padd_comm.
Qed.

(** two texts of the same length: where the sixteen bytes before a block agree, the difference of the texts is that of the messages *)
Lemma change_shows : forall pw t t' m, length t' = length t -> 16 <= length t -> go_decrypt pw (b64_encode t) = Some (Ok m) ->
  exists m', go_decrypt pw (b64_encode t') = Some (Ok m') /\ length m' = length m /\
  forall j x x' y, (forall q, 16 * (j / 16) <= q < 16 * (j / 16) + 16 -> nth_error t' q = nth_error t q) ->
    nth_error t (16 + j) = Some x -> nth_error t' (16 + j) = Some x' -> nth_error m j = Some y ->
    nth_error m' j = Some (padd y (padd x x')).
Proof.
  intros pw t t' m Lt L D. rewrite decrypted in D by exact L. apply some_ok in D. eexists.
  split; [apply decrypted; lia|]. rewrite <- D. split; [rewrite !dec_length, !skipn_length; rewrite Lt; reflexivity|].
  intros j x x' y Q X X' Y. set (E := encrypt_block_go (expand_key_go (sha_256 pw))) in *.
  assert (EL : forall b, length b = 16 -> length (E b) = 16) by (intros b Hb; apply (aes_length _ b (pass_key pw) Hb)).
  destruct (dec_byte E EL (sha_256 pw) (length t) (firstn 16 t) (skipn 16 t) j x) as (k & K & M);
    [rewrite skipn_length; lia|rewrite firstn_length; lia|rewrite nth_skip; exact X|].
  destruct (dec_byte E EL (sha_256 pw) (length t') (firstn 16 t') (skipn 16 t') j x') as (k' & K' & M');
    [rewrite skipn_length; lia|rewrite firstn_length; lia|rewrite nth_skip; exact X'|].
  rewrite firstn_skipn in K, K'. rewrite (nth_ext_cut _ t' t) in K' by exact Q. rewrite K in K'. injection K' as <-.
  rewrite M in Y. injection Y as <-. rewrite M', shift_difference. reflexivity.
Qed.

Lemma app_nth : forall A (a b : list A) j, nth_error (a ++ b) (length a + j) = nth_error b j.
Proof. intros. rewrite nth_error_app2 by lia. f_equal. lia. Qed.
(** one byte of the cipher changed by [d]: the same difference in that byte of the message, and apart from it only the next block changes *)
Lemma change_byte : forall pw iv a b c d m, length iv = 16 -> go_decrypt pw (b64_encode (iv ++ a ++ b :: c)) = Some (Ok m) ->
  exists m', go_decrypt pw (b64_encode (iv ++ a ++ padd b d :: c)) = Some (Ok m') /\ length m' = length m /\
  (forall y, nth_error m (length a) = Some y -> nth_error m' (length a) = Some (padd y d)) /\
  (forall j, j <> length a -> j / 16 <> length a / 16 + 1 -> nth_error m' j = nth_error m j).
Proof.
  intros pw iv a b c d m Hiv D. set (t := iv ++ a ++ b :: c) in *. set (t' := iv ++ a ++ padd b d :: c).
  assert (Lt : length t' = length t) by (unfold t, t'; rewrite !app_length; cbn [length]; reflexivity).
  assert (L : 16 <= length t) by (unfold t; rewrite app_length; lia).
  assert (Same : forall q, q <> 16 + length a -> nth_error t' q = nth_error t q).
  { intros q Dq. unfold t, t'. destruct (Nat.lt_ge_cases q 16) as [S|S]; [rewrite !nth_error_app1 by lia; reflexivity|].
    rewrite !(nth_error_app2 iv) by lia. rewrite Hiv. destruct (Nat.lt_ge_cases (q - 16) (length a)) as [S2|S2]; [rewrite !nth_error_app1 by lia; reflexivity|].
    rewrite !(nth_error_app2 a) by lia. destruct (q - 16 - length a) as [|r] eqn:R; [lia|reflexivity]. }
  assert (Bo : nth_error t (16 + length a) = Some b).
  { unfold t. rewrite <- Hiv, app_nth. replace (length a) with (length a + 0) by lia. rewrite app_nth. reflexivity. }
  assert (Bn : nth_error t' (16 + length a) = Some (padd b d)).
  { unfold t'. rewrite <- Hiv, app_nth. replace (length a) with (length a + 0) by lia. rewrite app_nth. reflexivity. }
  destruct (change_shows pw t t' m Lt L D) as (m' & D' & Lm & Q). exists m'. split; [exact D'|]. split; [exact Lm|].
  assert (LM : length m = length t - 16).
  { rewrite decrypted in D by exact L. apply some_ok in D as <-. rewrite dec_length, skipn_length. reflexivity. }
  split.
  - intros y Y. rewrite (Q (length a) b (padd b d) y); [|intros q R; apply Same; lia|exact Bo|exact Bn|exact Y].
    rewrite (padd_assoc b b d), padd_self, padd_0_l. reflexivity.
  - intros j J1 J2. destruct (nth_error m j) as [y|] eqn:Y.
    + assert (J : j < length m) by (apply nth_error_Some; rewrite Y; discriminate).
      destruct (nth_error t (16 + j)) as [x|] eqn:X; [|apply nth_error_None in X; lia].
      rewrite (Q j x x y); [|intros q R; apply Same; lia|exact X|rewrite Same by lia; exact X|exact Y].
      rewrite padd_self, padd_0_r. reflexivity.
    + apply nth_error_None. apply nth_error_None in Y. lia.
Qed.

(** pieces of two texts of one password, put together at ends of blocks: all of the first message up to there, and all of the second
    from the block after on *)
Lemma paste : forall pw a b c d m1 m2 n, length a = 16 + 16 * n -> length c mod 16 = 0 -> 16 <= length c ->
  go_decrypt pw (b64_encode (a ++ b)) = Some (Ok m1) -> go_decrypt pw (b64_encode (c ++ d)) = Some (Ok m2) ->
  exists m, go_decrypt pw (b64_encode (a ++ d)) = Some (Ok m) /\ firstn (16 * n) m = firstn (16 * n) m1 /\
    skipn (16 * n + 16) m = skipn (length c) m2.
Proof.
  intros pw a b c d m1 m2 n La Lc Lc' D1 D2.
  set (E := encrypt_block_go (expand_key_go (sha_256 pw))) in *.
  assert (EL : forall b, length b = 16 -> length (E b) = 16) by (intros b0 Hb; apply (aes_length _ b0 (pass_key pw) Hb)).
  rewrite decrypted in D1 by (rewrite app_length; lia). rewrite decrypted in D2 by (rewrite app_length; lia). apply some_ok in D1. apply some_ok in D2.
  eexists. split; [apply decrypted; rewrite app_length; lia|]. fold E in D1, D2 |- *.
  (* a byte of a decrypted text *)
  assert (B : forall t j, 16 <= length t -> match nth_error t (16 + j) with
      | Some x => exists y, nth_error (E (firstn 16 (skipn (16 * (j / 16)) t))) (j mod 16) = Some y /\
          nth_error (cfb (fun _ => E) true (sha_256 pw) [] (firstn 16 t) (skipn 16 t)) j = Some (padd x y)
      | None => nth_error (cfb (fun _ => E) true (sha_256 pw) [] (firstn 16 t) (skipn 16 t)) j = None
      end).
  { intros t j L. destruct (nth_error t (16 + j)) as [x|] eqn:X.
    - destruct (dec_byte E EL (sha_256 pw) (length t) (firstn 16 t) (skipn 16 t) j x) as (k & K & M);
        [rewrite skipn_length; lia|rewrite firstn_length; lia|rewrite nth_skip; exact X|]. rewrite firstn_skipn in K. eauto.
    - apply nth_error_None. rewrite dec_length, skipn_length. apply nth_error_None in X. lia. }
  assert (Eq : forall t t' j j', 16 <= length t -> 16 <= length t' -> nth_error t (16 + j) = nth_error t' (16 + j') -> j mod 16 = j' mod 16 ->
    firstn 16 (skipn (16 * (j / 16)) t) = firstn 16 (skipn (16 * (j' / 16)) t') ->
    nth_error (cfb (fun _ => E) true (sha_256 pw) [] (firstn 16 t) (skipn 16 t)) j = nth_error (cfb (fun _ => E) true (sha_256 pw) [] (firstn 16 t') (skipn 16 t')) j').
  { intros t t' j j' L L' H1 H2 H3. pose proof (B t j L) as X. pose proof (B t' j' L') as X'. rewrite H1 in X.
    destruct (nth_error t' (16 + j')) as [x|]; [|congruence]. destruct X as (y & Y & ->). destruct X' as (y' & Y' & ->).
    rewrite H2, H3, Y' in Y. injection Y as ->. reflexivity. }
  split.
  - rewrite <- D1. apply (nth_ext_cut _ _ _ 0). intros q R. apply Eq; [rewrite app_length; lia..| |reflexivity|].
    + rewrite !nth_error_app1 by lia. reflexivity.
    + apply nth_ext_cut. intros r S. rewrite !nth_error_app1 by lia. reflexivity.
  - rewrite <- D2. apply nth_same. intro j. rewrite !nth_skip. apply Eq; [rewrite app_length; lia..| | |].
    + rewrite !nth_error_app2 by lia. f_equal. lia.
    + lia.
    + assert (P1 : 16 * ((16 * n + 16 + j) / 16) = length a + 16 * (j / 16)) by lia.
      assert (P2 : 16 * ((length c + j) / 16) = length c + 16 * (j / 16)) by lia. rewrite P1, P2.
      assert (Sk : forall (u v : bytes) k, skipn (length u + k) (u ++ v) = skipn k v).
      { intros u v k. rewrite skipn_app, skipn_all2 by lia. cbn [app]. f_equal. lia. }
      rewrite !Sk. reflexivity.
Qed.
(** texts with one beginning and one message are one *)
Lemma change_noticed : forall pw iv c c' m, length iv = 16 -> go_decrypt pw (b64_encode (iv ++ c)) = Some (Ok m) ->
  go_decrypt pw (b64_encode (iv ++ c')) = Some (Ok m) -> c = c'.
Proof.
  intros pw iv c c' m Hiv H H'. rewrite decrypted in H, H' by (rewrite app_length; lia). apply some_ok in H. apply some_ok in H'.
  assert (F : forall k : bytes, firstn 16 (iv ++ k) = iv /\ skipn 16 (iv ++ k) = k).
  { intro k. rewrite firstn_app, skipn_app, Hiv, Nat.sub_diag, firstn_O, skipn_O, firstn_all2, skipn_all2, app_nil_r by lia. auto. }
  rewrite (proj1 (F c)), (proj2 (F c)) in H. rewrite (proj1 (F c')), (proj2 (F c')) in H'. rewrite <- (cfb_dec_enc (sha_256 pw) c [] iv), <- (cfb_dec_enc (sha_256 pw) c' [] iv).
  rewrite H, H'. reflexivity.
Qed.
