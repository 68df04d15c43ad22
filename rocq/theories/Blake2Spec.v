(** What BLAKE2b is (RFC 7693) and what BLAKE2Xb is (Aumasson, Neves, Wilcox-O'Hearn,
    Winnerlein: BLAKE2X).  Nothing here is taken from the code. *)
From Coq Require Import ZArith.
From Verif Require Import Base Edwards25519Model.
Local Open Scope N_scope.

(** 2.1, 2.3: words of 64 bits *)
Definition wadd (a b : N) : N := (a + b) mod 2 ^ 64.
Definition wrotr (x n : N) : N := N.lor (N.shiftr x n) (N.shiftl x (64 - n) mod 2 ^ 64).

(** 2.6 and 2.7 *)
Definition blake_iv : list N := [
  0x6A09E667F3BCC908; 0xBB67AE8584CAA73B; 0x3C6EF372FE94F82B; 0xA54FF53A5F1D36F1;
  0x510E527FADE682D1; 0x9B05688C2B3E6C1F; 0x1F83D9ABFB41BD6B; 0x5BE0CD19137E2179].
Definition sigma : list (list nat) := [
  [0; 1; 2; 3; 4; 5; 6; 7; 8; 9; 10; 11; 12; 13; 14; 15];
  [14; 10; 4; 8; 9; 15; 13; 6; 1; 12; 0; 2; 11; 7; 5; 3];
  [11; 8; 12; 0; 5; 2; 15; 13; 10; 14; 3; 6; 7; 1; 9; 4];
  [7; 9; 3; 1; 13; 12; 11; 14; 2; 6; 5; 10; 4; 0; 15; 8];
  [9; 0; 5; 7; 2; 4; 10; 15; 14; 1; 11; 12; 6; 8; 3; 13];
  [2; 12; 6; 10; 0; 11; 8; 3; 4; 13; 7; 5; 15; 14; 1; 9];
  [12; 5; 1; 15; 14; 13; 4; 10; 0; 7; 6; 3; 9; 2; 8; 11];
  [13; 11; 7; 14; 12; 1; 3; 9; 5; 0; 15; 4; 8; 6; 2; 10];
  [6; 15; 14; 9; 11; 3; 0; 8; 12; 2; 13; 7; 1; 4; 10; 5];
  [10; 2; 8; 4; 7; 6; 1; 5; 15; 11; 9; 14; 3; 12; 13; 0]]%nat.

(** 3.1: the mixing function G on four words *)
Definition mix_words (w : N * N * N * N) (x y : N) : N * N * N * N :=
  let '(a, b, c, d) := w in
  let a := wadd (wadd a b) x in let d := wrotr (N.lxor d a) 32 in
  let c := wadd c d in let b := wrotr (N.lxor b c) 24 in
  let a := wadd (wadd a b) y in let d := wrotr (N.lxor d a) 16 in
  let c := wadd c d in let b := wrotr (N.lxor b c) 63 in
  (a, b, c, d).

(** 3.2: one round on the sixteen words, columns and then diagonals *)
Definition blake_round (m : list N) (s : list nat) (v : list N) : list N :=
  match v with
  | [v0; v1; v2; v3; v4; v5; v6; v7; v8; v9; v10; v11; v12; v13; v14; v15] =>
      let w i := nth (nth i s O) m 0 in
      let '(v0, v4, v8, v12) := mix_words (v0, v4, v8, v12) (w 0%nat) (w 1%nat) in
      let '(v1, v5, v9, v13) := mix_words (v1, v5, v9, v13) (w 2%nat) (w 3%nat) in
      let '(v2, v6, v10, v14) := mix_words (v2, v6, v10, v14) (w 4%nat) (w 5%nat) in
      let '(v3, v7, v11, v15) := mix_words (v3, v7, v11, v15) (w 6%nat) (w 7%nat) in
      let '(v0, v5, v10, v15) := mix_words (v0, v5, v10, v15) (w 8%nat) (w 9%nat) in
      let '(v1, v6, v11, v12) := mix_words (v1, v6, v11, v12) (w 10%nat) (w 11%nat) in
      let '(v2, v7, v8, v13) := mix_words (v2, v7, v8, v13) (w 12%nat) (w 13%nat) in
      let '(v3, v4, v9, v14) := mix_words (v3, v4, v9, v14) (w 14%nat) (w 15%nat) in
      [v0; v1; v2; v3; v4; v5; v6; v7; v8; v9; v10; v11; v12; v13; v14; v15]
  | _ => v
  end.

(** the sixteen words of a block of 128 bytes, least significant byte first *)
Definition block_words (b : bytes) : list N :=
  map (fun i => Z.to_N (le_val (firstn 8 (skipn (8 * i) b)))) (seq 0 16).

(** 3.2: the compression function F; [t] is the number of bytes so far, [f] marks the last block *)
Definition blake_F (h : list N) (block : bytes) (t : N) (f : bool) : list N :=
  match h, blake_iv with
  | [h0; h1; h2; h3; h4; h5; h6; h7], [i0; i1; i2; i3; i4; i5; i6; i7] =>
      let v := h ++ [i0; i1; i2; i3; N.lxor i4 (t mod 2 ^ 64); N.lxor i5 (t / 2 ^ 64);
                     (if f then N.lxor i6 (2 ^ 64 - 1) else i6); i7] in
      let v := fold_left (fun v i => blake_round (block_words block) (nth (i mod 10) sigma []) v) (seq 0 12) v in
      map (fun i => N.lxor (N.lxor (nth i h 0) (nth i v 0)) (nth (i + 8) v 0)) (seq 0 8)
  | _, _ => h
  end.

Definition filled (b : bytes) : bytes := b ++ repeat x00 (128 - length b).
(** 3.3: the blocks of the data, the last one filled with zeros *)
Inductive blake_data : list N -> N -> bytes -> list N -> Prop :=
| Blake_last h t x : (length x <= 128)%nat -> blake_data h t x (blake_F h (filled x) (t + N.of_nat (length x)) true)
| Blake_more h t x y h' : length x = 128%nat -> y <> [] -> blake_data (blake_F h x (t + 128) false) (t + 128) y h' ->
    blake_data h t (x ++ y) h'.

(** 2.5 and the parameters of BLAKE2X: digest length, key length, fanout, depth, leaf length,
    node offset, xof length, node depth, inner length, then 46 bytes of zeros *)
Definition params (digest key fanout depth : N) (leaf node xof : Z) (node_depth inner : N) : bytes :=
  [n2b digest; n2b key; n2b fanout; n2b depth] ++ le_bytes 4 leaf ++ le_bytes 4 node ++ le_bytes 4 xof ++
  [n2b node_depth; n2b inner] ++ repeat x00 46.
Definition blake_start (p : bytes) : list N :=
  map (fun i => N.lxor (nth i blake_iv 0) (Z.to_N (le_val (firstn 8 (skipn (8 * i) p))))) (seq 0 8).
Definition word_bytes (h : list N) : bytes := concat (map (fun w => le_bytes 8 (Z.of_N w)) h).

(** BLAKE2Xb of no data under a key of at most 64 bytes, for an output of unknown length: the
    root and the output block [i] *)
Definition blake2xb_root (key root : bytes) : Prop :=
  exists h, blake_data (blake_start (params 64 (N.of_nat (length key)) 1 1 0 0 (2 ^ 32 - 1) 0 0)) 0
                       (if (length key =? 0)%nat then [] else filled key) h /\ root = word_bytes h.
Definition blake2xb_block (root : bytes) (i : Z) (out : bytes) : Prop :=
  exists h, blake_data (blake_start (params 64 0 0 0 64 i (2 ^ 32 - 1) 0 64)) 0 root h /\ out = word_bytes h.
(** its first [n] bytes, at most 64 *)
Definition blake2xb (key : bytes) (n : nat) (out : bytes) : Prop :=
  exists root block, blake2xb_root key root /\ blake2xb_block root 0 block /\ out = firstn n block.
