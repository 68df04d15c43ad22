(** SHA-512 (FIPS 180-4), the external function crypto/sha512 called by
    libs/hash/adapter.go:19-25.  Executable model over [N] words; the test
    vectors at the end are those of FIPS 180-4 and of Go's crypto/sha512. *)
From Verif Require Import Base.
Local Open Scope N_scope.

Definition w64 : N := 0x10000000000000000.
Definition mask64 : N := 0xffffffffffffffff.
Definition wadd (a b : N) : N := N.land (a + b) mask64.
Definition rotr (n x : N) : N :=
  N.lor (N.shiftr x n) (N.land (N.shiftl x (64 - n)) mask64).
Definition wnot (x : N) : N := N.lxor x mask64.

Definition ch x y z := N.lxor (N.land x y) (N.land (wnot x) z).
Definition maj x y z := N.lxor (N.lxor (N.land x y) (N.land x z)) (N.land y z).
Definition bsig0 x := N.lxor (N.lxor (rotr 28 x) (rotr 34 x)) (rotr 39 x).
Definition bsig1 x := N.lxor (N.lxor (rotr 14 x) (rotr 18 x)) (rotr 41 x).
Definition ssig0 x := N.lxor (N.lxor (rotr 1 x) (rotr 8 x)) (N.shiftr x 7).
Definition ssig1 x := N.lxor (N.lxor (rotr 19 x) (rotr 61 x)) (N.shiftr x 6).

Definition K512 : list N := [
  0x428a2f98d728ae22; 0x7137449123ef65cd; 0xb5c0fbcfec4d3b2f; 0xe9b5dba58189dbbc;
  0x3956c25bf348b538; 0x59f111f1b605d019; 0x923f82a4af194f9b; 0xab1c5ed5da6d8118;
  0xd807aa98a3030242; 0x12835b0145706fbe; 0x243185be4ee4b28c; 0x550c7dc3d5ffb4e2;
  0x72be5d74f27b896f; 0x80deb1fe3b1696b1; 0x9bdc06a725c71235; 0xc19bf174cf692694;
  0xe49b69c19ef14ad2; 0xefbe4786384f25e3; 0x0fc19dc68b8cd5b5; 0x240ca1cc77ac9c65;
  0x2de92c6f592b0275; 0x4a7484aa6ea6e483; 0x5cb0a9dcbd41fbd4; 0x76f988da831153b5;
  0x983e5152ee66dfab; 0xa831c66d2db43210; 0xb00327c898fb213f; 0xbf597fc7beef0ee4;
  0xc6e00bf33da88fc2; 0xd5a79147930aa725; 0x06ca6351e003826f; 0x142929670a0e6e70;
  0x27b70a8546d22ffc; 0x2e1b21385c26c926; 0x4d2c6dfc5ac42aed; 0x53380d139d95b3df;
  0x650a73548baf63de; 0x766a0abb3c77b2a8; 0x81c2c92e47edaee6; 0x92722c851482353b;
  0xa2bfe8a14cf10364; 0xa81a664bbc423001; 0xc24b8b70d0f89791; 0xc76c51a30654be30;
  0xd192e819d6ef5218; 0xd69906245565a910; 0xf40e35855771202a; 0x106aa07032bbd1b8;
  0x19a4c116b8d2d0c8; 0x1e376c085141ab53; 0x2748774cdf8eeb99; 0x34b0bcb5e19b48a8;
  0x391c0cb3c5c95a63; 0x4ed8aa4ae3418acb; 0x5b9cca4f7763e373; 0x682e6ff3d6b2b8a3;
  0x748f82ee5defb2fc; 0x78a5636f43172f60; 0x84c87814a1f0ab72; 0x8cc702081a6439ec;
  0x90befffa23631e28; 0xa4506cebde82bde9; 0xbef9a3f7b2c67915; 0xc67178f2e372532b;
  0xca273eceea26619c; 0xd186b8c721c0c207; 0xeada7dd6cde0eb1e; 0xf57d4f7fee6ed178;
  0x06f067aa72176fba; 0x0a637dc5a2c898a6; 0x113f9804bef90dae; 0x1b710b35131c471b;
  0x28db77f523047d84; 0x32caab7b40c72493; 0x3c9ebe0a15c9bebc; 0x431d67c49c100d4c;
  0x4cc5d4becb3e42b6; 0x597f299cfc657e2a; 0x5fcb6fab3ad6faec; 0x6c44198c4a475817
].

Record st8 := St8 { h0 : N; h1 : N; h2 : N; h3 : N; h4 : N; h5 : N; h6 : N; h7 : N }.

Definition H512 : st8 := St8
  0x6a09e667f3bcc908 0xbb67ae8584caa73b 0x3c6ef372fe94f82b 0xa54ff53a5f1d36f1
  0x510e527fade682d1 0x9b05688c2b3e6c1f 0x1f83d9abfb41bd6b 0x5be0cd19137e2179.

(** big-endian word of eight bytes *)
Definition word_of (l : list byte) : N :=
  fold_left (fun acc b => acc * 256 + Byte.to_N b) l 0.

Definition bytes_of_word (w : N) : list byte :=
  map (fun s => n2b (N.shiftr w s)) [56; 48; 40; 32; 24; 16; 8; 0].

Fixpoint words (n : nat) (l : list byte) : list N :=
  match n with
  | O => []
  | S n => word_of (firstn 8 l) :: words n (skipn 8 l)
  end.

(** message schedule: the window holds the last 16 words, oldest first *)
Definition next_w (win : list N) : N :=
  wadd (wadd (ssig1 (nth 14 win 0)) (nth 9 win 0))
       (wadd (ssig0 (nth 1 win 0)) (nth 0 win 0)).

Fixpoint rounds (ks : list N) (win : list N) (s : st8) : st8 :=
  match ks with
  | [] => s
  | k :: ks =>
      let w := nth 0 win 0 in
      let '(St8 a b c d e f g h) := s in
      let t1 := wadd (wadd (wadd h (bsig1 e)) (wadd (ch e f g) k)) w in
      let t2 := wadd (bsig0 a) (maj a b c) in
      rounds ks (tl win ++ [next_w win]) (St8 (wadd t1 t2) a b c (wadd d t1) e f g)
  end.

Definition compress (s : st8) (blk : list byte) : st8 :=
  let '(St8 a b c d e f g h) := s in
  let '(St8 a' b' c' d' e' f' g' h') := rounds K512 (words 16 blk) s in
  St8 (wadd a a') (wadd b b') (wadd c c') (wadd d d')
      (wadd e e') (wadd f f') (wadd g g') (wadd h h').

Definition pad512 (m : list byte) : list byte :=
  let len := N.of_nat (length m) in
  let z := (239 - (len mod 128)) mod 128 in
  m ++ x80 :: repeat x00 (N.to_nat z) ++ bytes_of_word (len * 8 / w64) ++ bytes_of_word (len * 8 mod w64).

Fixpoint blocks512 (n : nat) (l : list byte) (s : st8) : st8 :=
  match n with
  | O => s
  | S n => blocks512 n (skipn 128 l) (compress s (firstn 128 l))
  end.

Definition out512 (s : st8) : list byte :=
  bytes_of_word (h0 s) ++ bytes_of_word (h1 s) ++ bytes_of_word (h2 s) ++ bytes_of_word (h3 s) ++
  bytes_of_word (h4 s) ++ bytes_of_word (h5 s) ++ bytes_of_word (h6 s) ++ bytes_of_word (h7 s).

Definition sha512 (m : list byte) : list byte :=
  let p := pad512 m in
  out512 (blocks512 (N.to_nat (N.of_nat (length p) / 128)) p H512).

(** The only fact about SHA-512 that the proofs use. *)
Lemma sha512_length : forall m, length (sha512 m) = 64%nat.
Proof. intro m. reflexivity. Qed.

(** ** Test vectors *)
Definition hexs (m : list byte) : list byte := hex_encode (sha512 m).

Example sha512_empty : hexs ([]) =
  s2b "cf83e1357eefb8bdf1542850d66d8007d620e4050b5715dc83f4a921d36ce9ce47d0d13c5d85f2b0ff8318d2877eec2f63b931bd47417a81a538327af927da3e".
Proof. vm_compute. reflexivity. Qed.

Example sha512_abc : hexs (s2b "abc") =
  s2b "ddaf35a193617abacc417349ae20413112e6fa4e89a97ea20a9eeee64b55d39a2192992a274fc1a836ba3c23a3feebbd454d4423643ce80e2a9ac94fa54ca49f".
Proof. vm_compute. reflexivity. Qed.

Example sha512_two_blocks : hexs (s2b "abcdefghbcdefghicdefghijdefghijkefghijklfghijklmghijklmnhijklmnoijklmnopjklmnopqklmnopqrlmnopqrsmnopqrstnopqrstu") =
  s2b "8e959b75dae313da8cf4f72814fc143f8f7779c6eb9f7fa17299aeadb6889018501d289e4900f7e4331b99dec4b5433ac7d329eeb6dd26545e96e55b874be909".
Proof. vm_compute. reflexivity. Qed.

Example sha512_a63 : hexs (repeat x61 63) =
  s2b "c1b0f5c6d3b03dfe4a2602e67242f54e344090b66e01100a469b129f583f016c7e27dddeaa438393dcc7ec54b0b57c9ba7af007f9b56db5f6fb677d972a31362".
Proof. vm_compute. reflexivity. Qed.

Example sha512_a64 : hexs (repeat x61 64) =
  s2b "01d35c10c6c38c2dcf48f7eebb3235fb5ad74a65ec4cd016e2354c637a8fb49b695ef3c1d6f7ae4cd74d78cc9c9bcac9d4f23a73019998a7f73038a5c9b2dbde".
Proof. vm_compute. reflexivity. Qed.

Example sha512_a111 : hexs (repeat x61 111) =
  s2b "fa9121c7b32b9e01733d034cfc78cbf67f926c7ed83e82200ef86818196921760b4beff48404df811b953828274461673c68d04e297b0eb7b2b4d60fc6b566a2".
Proof. vm_compute. reflexivity. Qed.

Example sha512_a112 : hexs (repeat x61 112) =
  s2b "c01d080efd492776a1c43bd23dd99d0a2e626d481e16782e75d54c2503b5dc32bd05f0f1ba33e568b88fd2d970929b719ecbb152f58f130a407c8830604b70ca".
Proof. vm_compute. reflexivity. Qed.

Example sha512_a127 : hexs (repeat x61 127) =
  s2b "828613968b501dc00a97e08c73b118aa8876c26b8aac93df128502ab360f91bab50a51e088769a5c1eff4782ace147dce3642554199876374291f5d921629502".
Proof. vm_compute. reflexivity. Qed.

Example sha512_a128 : hexs (repeat x61 128) =
  s2b "b73d1929aa615934e61a871596b3f3b33359f42b8175602e89f7e06e5f658a243667807ed300314b95cacdd579f3e33abdfbe351909519a846d465c59582f321".
Proof. vm_compute. reflexivity. Qed.

Example sha512_a129 : hexs (repeat x61 129) =
  s2b "4f681e0bd53cda4b5a2041cc8a06f2eabde44fb16c951fbd5b87702f07aeab611565b19c47fde30587177ebb852e3971bbd8d3fd30da18d71037dfbd98420429".
Proof. vm_compute. reflexivity. Qed.

Example sha512_a300 : hexs (repeat x61 300) =
  s2b "a6a77010dd9696c23831e6549de51724df332c2075039b75fcfe6c2e6de42fbd3c80ed4073267e00c8c320712c3cdd9d65a96f90a3fe4a58a6b70a103be08e83".
Proof. vm_compute. reflexivity. Qed.

Global Opaque sha512.
