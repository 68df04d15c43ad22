(** C104: an encrypted text is AES-256 in CFB mode, as the standards say. *)
From Coq Require Import Lia ZifyNat.
From Verif Require Import Base Sha256 CfbModel AesModel AesSpec AesField AesKey AesCfb AesChange.

(** aes.NewCipher accepts exactly the three sizes of keys, and what it returns encrypts a block
    as FIPS 197 says: every block has one image. *)
Theorem C104_block : forall key, (new_cipher key = Err <-> ~ aes_key key) /\
  (forall xk, new_cipher key = Ok xk -> forall block out, length block = 16 ->
     (encrypt_block_go xk block = out <-> aes key block out)).
Proof. exact cipher_blocks. Qed.
Print Assumptions C104_block.
Theorem C104_no_panic : forall key, new_cipher key <> Panic.
Proof. exact new_cipher_no_panic. Qed.
Print Assumptions C104_no_panic.
(** The specification uses b^254 as the inverse of b; it is one. *)
Theorem C104_inverse : forall b, b <> x00 -> pmul b (pinv b) = x01.
Proof. exact pinv_ok. Qed.
Print Assumptions C104_inverse.
(** With one key different blocks have different images, and InvCipher finds the block. *)
Theorem C104_permutation : forall key b b' out, aes_key key -> length b = 16 -> length b' = 16 ->
  aes key b out -> aes key b' out -> b = b'.
Proof. exact aes_injective. Qed.
Print Assumptions C104_permutation.
Theorem C104_inverse_cipher : forall key w block, aes_key key -> schedule key w -> length block = 16 ->
  inv_cipher (length key / 4 + 6) w (cipher (length key / 4 + 6) w block) = block.
Proof. exact aes_back. Qed.
Print Assumptions C104_inverse_cipher.

(** Encrypt: the base64 text of the 16 random bytes and the message in CFB mode, under AES with
    the SHA-256 of the password as the key; an error only when there are no random bytes. *)
Theorem C104_encrypt : forall pw iv m t, length iv = 16 ->
  (go_encrypt pw (Some iv) m = Some (Ok t) <->
   exists c, cfb128 (aes (sha_256 pw)) iv m c /\ t = b64_encode (iv ++ c)).
Proof. exact go_encrypt_iff. Qed.
Print Assumptions C104_encrypt.
Theorem C104_encrypt_ends : forall pw m, go_encrypt pw None m = Some Err /\
  (forall iv, length iv = 16 -> exists t, go_encrypt pw (Some iv) m = Some (Ok t)).
Proof. exact (fun pw m => conj (go_encrypt_no_iv pw m) (fun iv H => ex_intro _ _ (go_encrypt_model pw iv m H))). Qed.
Print Assumptions C104_encrypt_ends.
(** Decrypt: exactly the message whose cipher, after the first 16 bytes, is the rest. *)
Theorem C104_decrypt : forall pw t m,
  go_decrypt pw t = Some (Ok m) <->
  exists iv c, b64_decode t = Ok (iv ++ c) /\ length iv = 16 /\ cfb128 (aes (sha_256 pw)) iv m c.
Proof. exact go_decrypt_iff. Qed.
Print Assumptions C104_decrypt.
Theorem C104_decrypt_ends : forall pw t, (exists m, go_decrypt pw t = Some (Ok m)) \/ go_decrypt pw t = Some Err.
Proof. exact go_decrypt_ends. Qed.
Print Assumptions C104_decrypt_ends.
(** C10, C11, C29 and the identity stores are about any block function; with this one they are
    about the package. *)
Theorem C104_model : forall pw,
  (forall iv m, length iv = 16 -> go_encrypt pw (Some iv) m = Some (Ok (encrypt sha_256 aes_block pw iv m))) /\
  (forall t, go_decrypt pw t = Some (decrypt sha_256 aes_block pw t)).
Proof. exact (fun pw => conj (go_encrypt_model pw) (go_decrypt_model pw)). Qed.
Print Assumptions C104_model.
(** The builder needs a password, also an empty one, and takes its digest for the key. *)
Theorem C104_builder : encryption_now None = Err /\ forall pw, encryption_now (Some pw) = Ok (sha_256 pw).
Proof. exact (conj eq_refl (fun pw => eq_refl)). Qed.
Print Assumptions C104_builder.
(** The first key block repeats exactly when the random bytes do. *)
Theorem C104_key_stream : forall pw iv iv' m m' c c', length iv = 16 -> length iv' = 16 -> 16 <= length m -> 16 <= length m' ->
  go_encrypt pw (Some iv) m = Some (Ok (b64_encode (iv ++ c))) ->
  go_encrypt pw (Some iv') m' = Some (Ok (b64_encode (iv' ++ c'))) ->
  (xors (firstn 16 c) (firstn 16 c') = xors (firstn 16 m) (firstn 16 m') <-> iv = iv').
Proof. exact key_stream_repeats. Qed.
Print Assumptions C104_key_stream.

(** C11 further: a text cut at its start or at its end is accepted, without the password, as the
    text of the message cut there. *)
Theorem C11_refuted_cut_start : forall pw iv c m, length iv = 16 -> 16 <= length c ->
  go_decrypt pw (b64_encode (iv ++ c)) = Some (Ok m) -> go_decrypt pw (b64_encode c) = Some (Ok (skipn 16 m)).
Proof. exact cut_front. Qed.
Print Assumptions C11_refuted_cut_start.
Theorem C11_refuted_cut_end : forall pw iv c m n, length iv = 16 ->
  go_decrypt pw (b64_encode (iv ++ c)) = Some (Ok m) -> go_decrypt pw (b64_encode (iv ++ firstn n c)) = Some (Ok (firstn n m)).
Proof. exact cut_end. Qed.
Print Assumptions C11_refuted_cut_end.
(** A byte of the cipher changed by any difference: the text is accepted, the byte of the message has the same difference, and apart
    from it at most the next block of the message is another. *)
Theorem C11_refuted_byte : forall pw iv a b c d m, length iv = 16 -> go_decrypt pw (b64_encode (iv ++ a ++ b :: c)) = Some (Ok m) ->
  exists m', go_decrypt pw (b64_encode (iv ++ a ++ padd b d :: c)) = Some (Ok m') /\ length m' = length m /\
  (forall y, nth_error m (length a) = Some y -> nth_error m' (length a) = Some (padd y d)) /\
  (forall j, j <> length a -> j / 16 <> length a / 16 + 1 -> nth_error m' j = nth_error m j).
Proof. exact change_byte. Qed.
Print Assumptions C11_refuted_byte.
(** Any changes whatsoever, of the random bytes at the start as well: wherever the sixteen bytes before a block are the same, the
    difference of the texts is the difference of the messages. *)
Theorem C11_refuted_difference : forall pw t t' m, length t' = length t -> 16 <= length t -> go_decrypt pw (b64_encode t) = Some (Ok m) ->
  exists m', go_decrypt pw (b64_encode t') = Some (Ok m') /\ length m' = length m /\
  forall j x x' y, (forall q, 16 * (j / 16) <= q < 16 * (j / 16) + 16 -> nth_error t' q = nth_error t q) ->
    nth_error t (16 + j) = Some x -> nth_error t' (16 + j) = Some x' -> nth_error m j = Some y ->
    nth_error m' j = Some (padd y (padd x x')).
Proof. exact change_shows. Qed.
Print Assumptions C11_refuted_difference.
(** Pieces of two texts of one password, put together at ends of blocks, are a text: of the first message up to there, and of the
    second from the block after on. *)
Theorem C11_refuted_paste : forall pw a b c d m1 m2 n, length a = 16 + 16 * n -> length c mod 16 = 0 -> 16 <= length c ->
  go_decrypt pw (b64_encode (a ++ b)) = Some (Ok m1) -> go_decrypt pw (b64_encode (c ++ d)) = Some (Ok m2) ->
  exists m, go_decrypt pw (b64_encode (a ++ d)) = Some (Ok m) /\ firstn (16 * n) m = firstn (16 * n) m1 /\
    skipn (16 * n + 16) m = skipn (length c) m2.
Proof. exact paste. Qed.
Print Assumptions C11_refuted_paste.
(** What holds: with the same random bytes, another cipher is never the same message. *)
Theorem C11_other_message_partial : forall pw iv c c' m, length iv = 16 -> go_decrypt pw (b64_encode (iv ++ c)) = Some (Ok m) ->
  go_decrypt pw (b64_encode (iv ++ c')) = Some (Ok m) -> c = c'.
Proof. exact change_noticed. Qed.
Print Assumptions C11_other_message_partial.

(** FIPS 197, appendices B, C.1, C.2 and C.3 *)
Definition counted (n : nat) : bytes := map n2b (map N.of_nat (seq 0 n)).
Definition doubled : bytes := map (fun i => n2b (N.of_nat (17 * i))) (seq 0 16).
Definition unhex (s : string) : bytes := match hex_decode (s2b s) with Ok b => b | _ => [] end.
Example C104_case_block :
  aes (unhex "2b7e151628aed2a6abf7158809cf4f3c") (unhex "3243f6a8885a308d313198a2e0370734") (unhex "3925841d02dc09fbdc118597196a0b32") /\
  aes (counted 16) doubled (unhex "69c4e0d86a7b0430d8cdb78070b4c55a") /\
  aes (counted 24) doubled (unhex "dda97ca4864cdfe06eaf70a0ec0d7191") /\
  aes (counted 32) doubled (unhex "8ea2b7ca516745bfeafc49904b496089") /\
  ~ aes_key (counted 17).
Proof.
  repeat match goal with |- _ /\ _ => split end; try (apply aes_go; [|reflexivity|vm_compute; reflexivity]).
  - left. reflexivity.
  - left. reflexivity.
  - right. left. reflexivity.
  - right. right. reflexivity.
  - intros [H|[H|H]]; discriminate H.
Qed.

(** SP 800-38A, F.3.17: two blocks of CFB128-AES256, and a part of the second *)
Definition nist_key : bytes := unhex "603deb1015ca71be2b73aef0857d77811f352c073b6108d72d9810a30914dff4".
Example C104_case_cfb :
  cfb128 (aes nist_key) (counted 16)
    (unhex "6bc1bee22e409f96e93d7e117393172aae2d8a571e03ac9c9eb76fac45af8e51")
    (unhex "dc7e84bfda79164b7ecd8486985d386039ffed143b28b1c832113c6331e5407b") /\
  cfb128 (aes nist_key) (counted 16)
    (unhex "6bc1bee22e409f96e93d7e117393172aae2d8a") (unhex "dc7e84bfda79164b7ecd8486985d386039ffed").
Proof. split; (apply cfb_iff; [right; right; reflexivity|reflexivity|vm_compute; reflexivity]). Qed.

(** a message of two blocks and a part, its text, and the text of another message *)
Definition note1 : bytes := s2b "send the first amount to the recipient".
Definition note2 : bytes := s2b "a rather different message in any case".
Definition other_iv : bytes := rev (counted 16).
Example C104_case_text : exists t c c',
  go_encrypt (s2b "password") (Some (counted 16)) note1 = Some (Ok t) /\ t = b64_encode (counted 16 ++ c) /\
  go_encrypt (s2b "password") (Some other_iv) note2 = Some (Ok (b64_encode (other_iv ++ c'))) /\
  go_decrypt (s2b "password") t = Some (Ok note1) /\
  go_decrypt (s2b "password") (b64_encode c) = Some (Ok (s2b "mount to the recipient" : bytes)) /\
  xors (firstn 16 c) (firstn 16 c') <> xors (firstn 16 note1) (firstn 16 note2) /\
  go_decrypt (s2b "password") (s2b "AAAA") = Some Err /\ go_encrypt (s2b "password") None note1 = Some Err.
Proof.
  pose (c := cfb aes_block false (sha_256 (s2b "password")) [] (counted 16) note1).
  pose (c' := cfb aes_block false (sha_256 (s2b "password")) [] other_iv note2).
  exists (b64_encode (counted 16 ++ c)), c, c'.
  assert (E : go_encrypt (s2b "password") (Some (counted 16)) note1 = Some (Ok (b64_encode (counted 16 ++ c))))
    by (apply go_encrypt_model; reflexivity).
  assert (E' : go_encrypt (s2b "password") (Some other_iv) note2 = Some (Ok (b64_encode (other_iv ++ c'))))
    by (apply go_encrypt_model; reflexivity).
  split; [exact E|]. split; [reflexivity|]. split; [exact E'|].
  assert (D : go_decrypt (s2b "password") (b64_encode (counted 16 ++ c)) = Some (Ok note1)).
  { apply go_encrypt_iff in E as (d & S & Ed); [|reflexivity]. apply go_decrypt_iff. exists (counted 16), d.
    rewrite Ed, BaseFacts.b64_decode_encode. split; [reflexivity|]. split; [reflexivity|exact S]. }
  split; [exact D|]. split.
  { change (s2b "mount to the recipient") with (skipn 16 note1). apply (cut_front _ (counted 16)); [reflexivity| |exact D].
    unfold c. rewrite CfbProofs.cfb_length. vm_compute. repeat constructor. }
  split.
  { intro X. apply (key_stream_repeats (s2b "password") (counted 16) other_iv note1 note2 c c') in X;
      [vm_compute in X; discriminate X|reflexivity|reflexivity|vm_compute; repeat constructor..|exact E|exact E']. }
  split; [vm_compute; reflexivity|apply go_encrypt_no_iv].
Qed.

(** the message of [C104_case_text]; "first" becomes "wirst", and what follows the next block stays *)
Example C11_case_byte : forall pw iv t, length iv = 16 -> go_encrypt pw (Some iv) note1 = Some (Ok t) ->
  exists a b c, t = b64_encode (iv ++ a ++ b :: c) /\ length a = 9 /\
  exists m', go_decrypt pw (b64_encode (iv ++ a ++ padd b (padd x66 x77) :: c)) = Some (Ok m') /\
    nth_error m' 9 = Some x77 /\ firstn 9 m' = firstn 9 note1 /\ skipn 32 m' = skipn 32 note1.
Proof.
  intros pw iv t Hiv H. assert (H0 := H). apply go_encrypt_iff in H as (k & S & ->); [|exact Hiv].
  assert (D : go_decrypt pw (b64_encode (iv ++ k)) = Some (Ok note1)).
  { apply go_decrypt_iff. exists iv, k. rewrite BaseFacts.b64_decode_encode. auto. }
  assert (L : length k = 38).
  { pose proof D as Q. rewrite decrypted in Q by (rewrite app_length, Hiv; apply Nat.le_add_r). apply some_ok in Q. apply (f_equal (@length byte)) in Q.
    rewrite dec_length, skipn_app, Hiv, Nat.sub_diag, skipn_O, skipn_all2 in Q by (rewrite Hiv; apply Nat.le_refl). exact Q. }
  assert (Sp : exists a b c, k = a ++ b :: c /\ length a = 9).
  { destruct k as [|k0 [|k1 [|k2 [|k3 [|k4 [|k5 [|k6 [|k7 [|k8 [|k9 k]]]]]]]]]]; try discriminate L.
    exists [k0; k1; k2; k3; k4; k5; k6; k7; k8], k9, k. split; reflexivity. }
  destruct Sp as (a & b & c & -> & La). exists a, b, c. split; [reflexivity|]. split; [exact La|].
  destruct (C11_refuted_byte pw iv a b c (padd x66 x77) note1 Hiv D) as (m' & D' & Lm & P & Q). exists m'. split; [exact D'|].
  rewrite La in P, Q. split; [|split].
  - rewrite (P x66) by reflexivity. rewrite padd_assoc, padd_self, padd_0_l. reflexivity.
  - apply (nth_ext_cut byte m' note1 0 9). intros q R. apply Q.
    + lia.
    + rewrite Nat.div_small by lia. lia.
  - apply nth_same. intro j. rewrite !nth_skip. apply Q.
    + lia.
    + assert (2 <= (32 + j) / 16) by lia. change (9 / 16 + 1) with 1. lia.
Qed.
