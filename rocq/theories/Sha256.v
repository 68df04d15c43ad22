(** SHA-256 (FIPS 180-4), the external function crypto/sha256 that
    vendor/go.dedis.ch/kyber/v3/group/edwards25519/suite.go:25-27 hands out as
    [curve.Hash()] and libs/cryptography/pk/signature/helper.go:10-16 calls.
    Executable model over [N] words; test vectors at the end. *)
From Verif Require Import Base.
Local Open Scope N_scope.

Definition mask32 : N := 0xffffffff.
Definition add32 (a b : N) : N := N.land (a + b) mask32.
Definition rotr32 (n x : N) : N :=
  N.lor (N.shiftr x n) (N.land (N.shiftl x (32 - n)) mask32).
Definition not32 (x : N) : N := N.lxor x mask32.

Definition ch32 x y z := N.lxor (N.land x y) (N.land (not32 x) z).
Definition maj32 x y z := N.lxor (N.lxor (N.land x y) (N.land x z)) (N.land y z).
Definition bsig0_32 x := N.lxor (N.lxor (rotr32 2 x) (rotr32 13 x)) (rotr32 22 x).
Definition bsig1_32 x := N.lxor (N.lxor (rotr32 6 x) (rotr32 11 x)) (rotr32 25 x).
Definition ssig0_32 x := N.lxor (N.lxor (rotr32 7 x) (rotr32 18 x)) (N.shiftr x 3).
Definition ssig1_32 x := N.lxor (N.lxor (rotr32 17 x) (rotr32 19 x)) (N.shiftr x 10).

Definition K256 : list N := [
  0x428a2f98; 0x71374491; 0xb5c0fbcf; 0xe9b5dba5; 0x3956c25b; 0x59f111f1;
  0x923f82a4; 0xab1c5ed5; 0xd807aa98; 0x12835b01; 0x243185be; 0x550c7dc3;
  0x72be5d74; 0x80deb1fe; 0x9bdc06a7; 0xc19bf174; 0xe49b69c1; 0xefbe4786;
  0x0fc19dc6; 0x240ca1cc; 0x2de92c6f; 0x4a7484aa; 0x5cb0a9dc; 0x76f988da;
  0x983e5152; 0xa831c66d; 0xb00327c8; 0xbf597fc7; 0xc6e00bf3; 0xd5a79147;
  0x06ca6351; 0x14292967; 0x27b70a85; 0x2e1b2138; 0x4d2c6dfc; 0x53380d13;
  0x650a7354; 0x766a0abb; 0x81c2c92e; 0x92722c85; 0xa2bfe8a1; 0xa81a664b;
  0xc24b8b70; 0xc76c51a3; 0xd192e819; 0xd6990624; 0xf40e3585; 0x106aa070;
  0x19a4c116; 0x1e376c08; 0x2748774c; 0x34b0bcb5; 0x391c0cb3; 0x4ed8aa4a;
  0x5b9cca4f; 0x682e6ff3; 0x748f82ee; 0x78a5636f; 0x84c87814; 0x8cc70208;
  0x90befffa; 0xa4506ceb; 0xbef9a3f7; 0xc67178f2
].

Record state256 := St256 { a0 : N; a1 : N; a2 : N; a3 : N; a4 : N; a5 : N; a6 : N; a7 : N }.

Definition H256 : state256 := St256
  0x6a09e667 0xbb67ae85 0x3c6ef372 0xa54ff53a
  0x510e527f 0x9b05688c 0x1f83d9ab 0x5be0cd19.

(** big-endian word of four bytes *)
Definition word32_of (l : list byte) : N :=
  fold_left (fun acc b => acc * 256 + Byte.to_N b) l 0.

Definition bytes_of_word32 (w : N) : list byte :=
  map (fun s => n2b (N.shiftr w s)) [24; 16; 8; 0].

Fixpoint words32 (n : nat) (l : list byte) : list N :=
  match n with
  | O => []
  | S n => word32_of (firstn 4 l) :: words32 n (skipn 4 l)
  end.

(** message schedule: the window holds the last 16 words, oldest first *)
Definition next_w32 (win : list N) : N :=
  add32 (add32 (ssig1_32 (nth 14 win 0)) (nth 9 win 0))
        (add32 (ssig0_32 (nth 1 win 0)) (nth 0 win 0)).

Fixpoint rounds32 (ks : list N) (win : list N) (s : state256) : state256 :=
  match ks with
  | [] => s
  | k :: ks =>
      let w := nth 0 win 0 in
      let '(St256 a b c d e f g h) := s in
      let t1 := add32 (add32 (add32 h (bsig1_32 e)) (add32 (ch32 e f g) k)) w in
      let t2 := add32 (bsig0_32 a) (maj32 a b c) in
      rounds32 ks (tl win ++ [next_w32 win]) (St256 (add32 t1 t2) a b c (add32 d t1) e f g)
  end.

Definition compress256 (s : state256) (blk : list byte) : state256 :=
  let '(St256 a b c d e f g h) := s in
  let '(St256 a' b' c' d' e' f' g' h') := rounds32 K256 (words32 16 blk) s in
  St256 (add32 a a') (add32 b b') (add32 c c') (add32 d d')
        (add32 e e') (add32 f f') (add32 g g') (add32 h h').

Definition pad256 (m : list byte) : list byte :=
  let bits := N.of_nat (length m) * 8 in
  let z := (119 - (N.of_nat (length m) mod 64)) mod 64 in
  m ++ x80 :: repeat x00 (N.to_nat z) ++
  bytes_of_word32 (N.land (N.shiftr bits 32) mask32) ++ bytes_of_word32 (N.land bits mask32).

Fixpoint blocks256 (n : nat) (l : list byte) (s : state256) : state256 :=
  match n with
  | O => s
  | S n => blocks256 n (skipn 64 l) (compress256 s (firstn 64 l))
  end.

Definition out256 (s : state256) : list byte :=
  bytes_of_word32 (a0 s) ++ bytes_of_word32 (a1 s) ++ bytes_of_word32 (a2 s) ++ bytes_of_word32 (a3 s) ++
  bytes_of_word32 (a4 s) ++ bytes_of_word32 (a5 s) ++ bytes_of_word32 (a6 s) ++ bytes_of_word32 (a7 s).

Definition sha_256 (m : list byte) : list byte :=
  let p := pad256 m in
  out256 (blocks256 (N.to_nat (N.of_nat (length p) / 64)) p H256).

Lemma sha_256_length : forall m, length (sha_256 m) = 32%nat.
Proof. intro m. reflexivity. Qed.

(** ** Test vectors *)
Example sha256_empty : hex_encode (sha_256 ([])) =
  s2b "e3b0c44298fc1c149afbf4c8996fb92427ae41e4649b934ca495991b7852b855".
Proof. vm_compute. reflexivity. Qed.

Example sha256_abc : hex_encode (sha_256 (s2b "abc")) =
  s2b "ba7816bf8f01cfea414140de5dae2223b00361a396177a9cb410ff61f20015ad".
Proof. vm_compute. reflexivity. Qed.

Example sha256_two_blocks : hex_encode (sha_256 (s2b "abcdbcdecdefdefgefghfghighijhijkijkljklmklmnlmnomnopnopq")) =
  s2b "248d6a61d20638b8e5c026930c3e6039a33ce45964ff2167f6ecedd419db06c1".
Proof. vm_compute. reflexivity. Qed.

Example sha256_a55 : hex_encode (sha_256 (repeat x61 55)) =
  s2b "9f4390f8d30c2dd92ec9f095b65e2b9ae9b0a925a5258e241c9f1e910f734318".
Proof. vm_compute. reflexivity. Qed.

Example sha256_a56 : hex_encode (sha_256 (repeat x61 56)) =
  s2b "b35439a4ac6f0948b6d6f9e3c6af0f5f590ce20f1bde7090ef7970686ec6738a".
Proof. vm_compute. reflexivity. Qed.

Example sha256_a63 : hex_encode (sha_256 (repeat x61 63)) =
  s2b "7d3e74a05d7db15bce4ad9ec0658ea98e3f06eeecf16b4c6fff2da457ddc2f34".
Proof. vm_compute. reflexivity. Qed.

Example sha256_a64 : hex_encode (sha_256 (repeat x61 64)) =
  s2b "ffe054fe7ae0cb6dc65c3af9b61d5209f439851db43d0ba5997337df154668eb".
Proof. vm_compute. reflexivity. Qed.

Example sha256_a119 : hex_encode (sha_256 (repeat x61 119)) =
  s2b "31eba51c313a5c08226adf18d4a359cfdfd8d2e816b13f4af952f7ea6584dcfb".
Proof. vm_compute. reflexivity. Qed.

Example sha256_a120 : hex_encode (sha_256 (repeat x61 120)) =
  s2b "2f3d335432c70b580af0e8e1b3674a7c020d683aa5f73aaaedfdc55af904c21c".
Proof. vm_compute. reflexivity. Qed.
