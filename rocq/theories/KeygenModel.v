(** How private keys are made: libs/cryptography/pk/signature/privatekey_factory.go, and
    below it of kyber the method Pick of scalars, util/random, xof/blake2xb and the vendored
    golang.org/x/crypto/blake2b. *)
From Coq Require Import ZArith.
From Verif Require Import Base Sha256 HashModel SignModel Primes25519 Edwards25519Model.
Local Open Scope N_scope.

(** ** vendor/golang.org/x/crypto/blake2b *)

(** uint64 *)
Definition two64 : N := 2 ^ 64.
Definition plus64 (a b : N) : N := (a + b) mod two64.
Definition less64 (a b : N) : N := (a + (two64 - b)) mod two64.
(** bits.RotateLeft64(x, -k) *)
Definition turn64 (x k : N) : N := N.lor (N.shiftr x k) (N.shiftl x (64 - k) mod two64).
(** binary.LittleEndian.Uint64 and PutUint64 *)
Definition uint64 (l : bytes) : N := Z.to_N (le_val (firstn 8 l)).
Definition put64 (x : N) : bytes := le_bytes 8 (Z.of_N x).
Fixpoint uint64s (n : nat) (l : bytes) : list N :=
  match n with O => [] | S n => uint64 l :: uint64s n (skipn 8 l) end.

(** blake2b.go:50-53 *)
Definition iv : list N := [
  0x6a09e667f3bcc908; 0xbb67ae8584caa73b; 0x3c6ef372fe94f82b; 0xa54ff53a5f1d36f1;
  0x510e527fade682d1; 0x9b05688c2b3e6c1f; 0x1f83d9abfb41bd6b; 0x5be0cd19137e2179].

(** blake2b_generic.go:15-28 *)
Definition precomputed : list (list nat) := [
  [0; 2; 4; 6; 1; 3; 5; 7; 8; 10; 12; 14; 9; 11; 13; 15];
  [14; 4; 9; 13; 10; 8; 15; 6; 1; 0; 11; 5; 12; 2; 7; 3];
  [11; 12; 5; 15; 8; 0; 2; 13; 10; 3; 7; 9; 14; 6; 1; 4];
  [7; 3; 13; 11; 9; 1; 12; 14; 2; 5; 4; 15; 6; 10; 0; 8];
  [9; 5; 2; 10; 0; 7; 4; 15; 14; 11; 6; 3; 1; 12; 8; 13];
  [2; 6; 0; 8; 12; 10; 11; 3; 4; 7; 15; 1; 13; 5; 14; 9];
  [12; 1; 14; 4; 5; 15; 13; 10; 0; 6; 9; 8; 7; 3; 2; 11];
  [13; 7; 12; 3; 11; 14; 1; 9; 5; 15; 8; 2; 0; 4; 6; 10];
  [6; 14; 11; 0; 15; 9; 3; 8; 12; 13; 1; 10; 2; 7; 4; 5];
  [10; 8; 7; 1; 2; 4; 6; 5; 15; 9; 3; 13; 11; 14; 12; 0];
  [0; 2; 4; 6; 1; 3; 5; 7; 8; 10; 12; 14; 9; 11; 13; 15];
  [14; 4; 9; 13; 10; 8; 15; 6; 1; 0; 11; 5; 12; 2; 7; 3]]%nat.

(** blake2b_generic.go:55-165: seven statements on four of the words,
      va += m[s[i]]; va += vb; vd ^= va; vd = RotateLeft64(vd, -r1); vc += vd; vb ^= vc; vb = RotateLeft64(vb, -r2) *)
Definition mix (m : list N) (s : list nat) (v : list N) (step : nat * nat * nat * nat * nat * N * N) : list N :=
  let '(i, a, b, c, d, r1, r2) := step in
  let v := upd a (plus64 (nth a v 0) (nth (nth i s O) m 0)) v in
  let v := upd a (plus64 (nth a v 0) (nth b v 0)) v in
  let v := upd d (N.lxor (nth d v 0) (nth a v 0)) v in
  let v := upd d (turn64 (nth d v 0) r1) v in
  let v := upd c (plus64 (nth c v 0) (nth d v 0)) v in
  let v := upd b (N.lxor (nth b v 0) (nth c v 0)) v in
  upd b (turn64 (nth b v 0) r2) v.
(** the sixteen times seven statements of a round, in their order *)
Definition steps : list (nat * nat * nat * nat * nat * N * N) := [
  (0%nat, 0%nat, 4%nat, 8%nat, 12%nat, 32, 24); (1%nat, 1%nat, 5%nat, 9%nat, 13%nat, 32, 24);
  (2%nat, 2%nat, 6%nat, 10%nat, 14%nat, 32, 24); (3%nat, 3%nat, 7%nat, 11%nat, 15%nat, 32, 24);
  (4%nat, 0%nat, 4%nat, 8%nat, 12%nat, 16, 63); (5%nat, 1%nat, 5%nat, 9%nat, 13%nat, 16, 63);
  (6%nat, 2%nat, 6%nat, 10%nat, 14%nat, 16, 63); (7%nat, 3%nat, 7%nat, 11%nat, 15%nat, 16, 63);
  (8%nat, 0%nat, 5%nat, 10%nat, 15%nat, 32, 24); (9%nat, 1%nat, 6%nat, 11%nat, 12%nat, 32, 24);
  (10%nat, 2%nat, 7%nat, 8%nat, 13%nat, 32, 24); (11%nat, 3%nat, 4%nat, 9%nat, 14%nat, 32, 24);
  (12%nat, 0%nat, 5%nat, 10%nat, 15%nat, 16, 63); (13%nat, 1%nat, 6%nat, 11%nat, 12%nat, 16, 63);
  (14%nat, 2%nat, 7%nat, 8%nat, 13%nat, 16, 63); (15%nat, 3%nat, 4%nat, 9%nat, 14%nat, 16, 63)].

(** blake2b_generic.go:30-182 hashBlocksGeneric for one block of 128 bytes *)
Definition hash_block (h : list N) (c : N * N) (flag : N) (block : bytes) : list N * (N * N) :=
  let c0 := plus64 (fst c) 128 in
  let c1 := if c0 <? 128 then plus64 (snd c) 1 else snd c in
  let v := h ++ iv in
  let v := upd 12 (N.lxor (nth 12 v 0) c0) v in
  let v := upd 13 (N.lxor (nth 13 v 0) c1) v in
  let v := upd 14 (N.lxor (nth 14 v 0) flag) v in
  let m := uint64s 16 block in
  let v := fold_left (fun v s => fold_left (mix m s) steps v) precomputed v in
  (map (fun i => N.lxor (nth i h 0) (N.lxor (nth i v 0) (nth (i + 8) v 0))) (seq 0 8), (c0, c1)).

(** blake2b.go:144-153; [block] holds the bytes up to the offset *)
Record digest := Digest { dg_h : list N; dg_c : N * N; dg_block : bytes }.
Definition fill (n : nat) (l : bytes) : bytes := l ++ repeat x00 (n - length l).

(** blake2b.go:205-213 Reset of a digest of size 64 with the given key *)
Definition reset (key : bytes) : digest :=
  let k := N.of_nat (length key) in
  Digest (upd 0 (N.lxor (nth 0 iv 0) (N.lor (N.lor (N.lor 64 (N.shiftl k 8)) (N.shiftl 1 16)) (N.shiftl 1 24))) iv)
    (0, 0) (if 0 <? k then fill 128 key else []).
(** blake2b.go:252-270 finalize *)
Definition finalize (d : digest) : bytes :=
  let remaining := N.of_nat (128 - length (dg_block d)) in
  let '(c0, c1) := dg_c d in
  let c := (less64 c0 remaining, if c0 <? remaining then less64 c1 1 else c1) in
  concat (map put64 (fst (hash_block (dg_h d) c 0xffffffffffffffff (fill 128 (dg_block d))))).

(** ** vendor/golang.org/x/crypto/blake2b/blake2x.go *)

(** blake2x.go:38-62 NewXOF(OutputLengthUnknown, key), 87-102 Reset, and 105-108: the hash of
    the root.  Keys of up to 64 bytes. *)
Definition xof_root (key : bytes) : bytes :=
  let d := reset key in
  finalize (Digest (upd 1 (N.lxor (nth 1 (dg_h d) 0) (N.shiftl 0xffffffff 32)) (dg_h d)) (dg_c d) (dg_block d)).
(** blake2x.go:88-91 and 146: the parameters of an output block *)
Definition xof_config (node : N) : bytes :=
  [n2b 64; x00; x00; x00] ++ le_bytes 4 64 ++ le_bytes 4 (Z.of_N node) ++ le_bytes 4 0xffffffff ++ [x00; n2b 64] ++ repeat x00 46.
(** blake2x.go:165-170 initConfig, then Write of the 64 bytes of the root and finalize *)
Definition xof_block (root : bytes) (node : N) : bytes :=
  finalize (Digest (map (fun p => N.lxor (fst p) (snd p)) (combine iv (uint64s 8 (xof_config node)))) (0, 0) root).
(** blake2x.go:104-163 the first Read, of at most 64 bytes.  More is never asked for. *)
Definition xof_read (key : bytes) (n : nat) : bytes := firstn n (xof_block (xof_root key) 0).

(** ** kyber *)

(** xof/blake2xb/blake.go:68-85 XORKeyStream of a new xof over zeros; util/random/rand.go:51-83
    XORKeyStream, with one reader that gave 32 bytes *)
Definition key_stream (drawn : bytes) (n : nat) : bytes :=
  map (fun p => n2b (N.lxor (b2n (fst p)) (b2n (snd p)))) (combine (repeat x00 n) (xof_read (sha_256 drawn) n)).

(** util/random/rand.go:16-31 Bits, not exact: [b[0] &= ^(0xff << highbits)] *)
Definition mask_first (high : N) (b : bytes) : bytes :=
  if high =? 0 then b
  else match b with
       | [] => []
       | c :: b => n2b (N.land (b2n c) (N.lxor 255 (N.shiftl 255 high mod 256))) :: b
       end.
Definition bits (bitlen : N) (drawn : bytes) : bytes :=
  mask_first (N.land bitlen 7) (key_stream drawn (N.to_nat ((bitlen + 7) / 8))).

(** big.Int SetBytes *)
Definition be_val (b : bytes) : Z := fold_left (fun n c => (n * 256 + b2z c)%Z) b 0%Z.
(** big.Int BitLen *)
Definition bit_len (z : Z) : N := Z.to_N (Z.log2 z + 1).

(** util/random/rand.go:34-43 Int: draws until the number lies between 0 and the modulus.
    [reads] are the results of reading 32 bytes from crypto/rand, [None] where that fails
    (rand.go:65-77: then all readers have failed, a panic); [None] as result: the draws given
    do not suffice, the loop goes on. *)
Fixpoint random_int (modulus : Z) (reads : list (option bytes)) : option (res Z) :=
  match reads with
  | [] => None
  | None :: _ => Some Panic
  | Some drawn :: reads =>
      let i := be_val (bits (bit_len modulus) drawn) in
      if ((0 <? i) && (i <? modulus))%Z then Some (Ok i) else random_int modulus reads
  end.

(** group/edwards25519/scalar.go:136-139 Pick, 51-55 setInt; group/mod/int.go:56-58, 79-84
    NewInt, 397-414 LittleEndian *)
Definition scalar_pick (reads : list (option bytes)) : option (res bytes) :=
  option_map (fun r => let! i := r in Ok (le_bytes 32 (i mod l25519))) (random_int l25519 reads).

(** privatekey_factory.go:12-15 Create *)
Definition private_key_create (reads : list (option bytes)) : option (res bytes) := scalar_pick reads.

Example blake_case :
  hex_encode (xof_root (n2b 1 :: repeat (n2b 7) 31)) = s2b "69a5b4ed8823b16f1c90ec943aeb1f9dc624beaa9ff012b8587d2afd44079f32e49e04976d80f9c310d6f176a8af718d22d253a106b49c783cc2ef68a14f0891" /\
  hex_encode (xof_read (n2b 1 :: repeat (n2b 7) 31) 32) = s2b "8f62c1ff8095f9b25a59aec8b5f3beb6196822b5d85f91210bf46b5ff6b0d8fa".
Proof. vm_compute. repeat split. Qed.
