(** What AES and the CFB mode are: FIPS 197 and NIST SP 800-38A (CFB with segments of 128
    bits).  Nothing here is taken from the code.

    A byte is a polynomial over the field of two elements, of degree below 8
    ([Byte.to_bits] lists the coefficients from the constant on). *)
From Verif Require Import Base.
From Coq Require Import Nat.

(** FIPS 197, 4.1: addition *)
Definition padd (a b : byte) : byte :=
  let '(a0, (a1, (a2, (a3, (a4, (a5, (a6, a7))))))) := Byte.to_bits a in
  let '(b0, (b1, (b2, (b3, (b4, (b5, (b6, b7))))))) := Byte.to_bits b in
  Byte.of_bits (xorb a0 b0, (xorb a1 b1, (xorb a2 b2, (xorb a3 b3,
    (xorb a4 b4, (xorb a5 b5, (xorb a6 b6, xorb a7 b7))))))).

(** 4.2.1: multiplication by x modulo x^8 + x^4 + x^3 + x + 1 *)
Definition xtime (b : byte) : byte :=
  let '(b0, (b1, (b2, (b3, (b4, (b5, (b6, b7))))))) := Byte.to_bits b in
  Byte.of_bits (b7, (xorb b0 b7, (b1, (xorb b2 b7, (xorb b3 b7, (b4, (b5, b6))))))).

(** 4.2: multiplication, coefficient by coefficient of the first factor *)
Definition scale (c : bool) (b : byte) : byte := if c then b else x00.
Definition pmul (a b : byte) : byte :=
  let '(a0, (a1, (a2, (a3, (a4, (a5, (a6, a7))))))) := Byte.to_bits a in
  padd (scale a0 b) (xtime (padd (scale a1 b) (xtime (padd (scale a2 b) (xtime (padd (scale a3 b)
  (xtime (padd (scale a4 b) (xtime (padd (scale a5 b) (xtime (padd (scale a6 b) (xtime (scale a7 b)))))))))))))).

(** the inverse, b^254; 00 for 00.  [C104_inverse] says that it is one. *)
Definition psquare (b : byte) : byte := pmul b b.
Definition pinv (b : byte) : byte :=
  let b2 := psquare b in let b4 := psquare b2 in let b8 := psquare b4 in let b16 := psquare b8 in
  let b32 := psquare b16 in let b64 := psquare b32 in let b128 := psquare b64 in
  pmul b2 (pmul b4 (pmul b8 (pmul b16 (pmul b32 (pmul b64 b128))))).

(** 5.1.1: the S-box *)
Definition affine (b : byte) : byte :=
  let '(b0, (b1, (b2, (b3, (b4, (b5, (b6, b7))))))) := Byte.to_bits b in
  let s i j k l m c := xorb i (xorb j (xorb k (xorb l (xorb m c)))) in
  Byte.of_bits (s b0 b4 b5 b6 b7 true, (s b1 b5 b6 b7 b0 true, (s b2 b6 b7 b0 b1 false, (s b3 b7 b0 b1 b2 false,
    (s b4 b0 b1 b2 b3 false, (s b5 b1 b2 b3 b4 true, (s b6 b2 b3 b4 b5 true, s b7 b3 b4 b5 b6 false))))))).
Definition sbox (b : byte) : byte := affine (pinv b).

(** 3.4: the state; row r and column c is byte r + 4c *)
Definition cell (s : bytes) (r c : nat) : byte := nth (r + 4 * c) s x00.
Definition table (f : nat -> nat -> byte) : bytes := map (fun i => f (i mod 4) (i / 4)) (seq 0 16).

Fixpoint xors (a b : bytes) : bytes :=
  match a, b with
  | x :: a, y :: b => padd x y :: xors a b
  | _, _ => []
  end.

(** 5.1.1 - 5.1.4 *)
Definition sub_bytes (s : bytes) : bytes := map sbox s.
Definition shift_rows (s : bytes) : bytes := table (fun r c => cell s r ((c + r) mod 4)).
Definition mix_columns (s : bytes) : bytes := table (fun r c =>
  padd (pmul x02 (cell s r c)) (padd (pmul x03 (cell s ((r + 1) mod 4) c))
    (padd (cell s ((r + 2) mod 4) c) (cell s ((r + 3) mod 4) c)))).
Definition round_key (w : nat -> bytes) (i : nat) : bytes :=
  w (4 * i) ++ w (4 * i + 1) ++ w (4 * i + 2) ++ w (4 * i + 3).
Definition add_round_key (w : nat -> bytes) (i : nat) (s : bytes) : bytes := xors s (round_key w i).

(** 5.1: Cipher with [nr] rounds; rounds 1 to [nr - 1], then the last *)
Fixpoint cipher_rounds (n i : nat) (w : nat -> bytes) (s : bytes) : bytes :=
  match n with
  | O => s
  | S n => cipher_rounds n (S i) w (add_round_key w i (mix_columns (shift_rows (sub_bytes s))))
  end.
Definition cipher (nr : nat) (w : nat -> bytes) (block : bytes) : bytes :=
  add_round_key w nr (shift_rows (sub_bytes
    (cipher_rounds (nr - 1) 1 w (add_round_key w 0 block)))).

(** 5.3: InvCipher *)
Definition inv_shift_rows (s : bytes) : bytes := table (fun r c => cell s r ((c + 4 - r) mod 4)).
Definition inv_mix_columns (s : bytes) : bytes := table (fun r c =>
  padd (pmul x0e (cell s r c)) (padd (pmul x0b (cell s ((r + 1) mod 4) c))
    (padd (pmul x0d (cell s ((r + 2) mod 4) c)) (pmul x09 (cell s ((r + 3) mod 4) c))))).
(** 5.3.2: the inverse of the affine map, then of the field *)
Definition inv_affine (b : byte) : byte :=
  let '(b0, (b1, (b2, (b3, (b4, (b5, (b6, b7))))))) := Byte.to_bits b in
  let s i j k c := xorb i (xorb j (xorb k c)) in
  Byte.of_bits (s b2 b5 b7 true, (s b3 b6 b0 false, (s b4 b7 b1 true, (s b5 b0 b2 false,
    (s b6 b1 b3 false, (s b7 b2 b4 false, (s b0 b3 b5 false, s b1 b4 b6 false))))))).
Definition inv_sbox (b : byte) : byte := pinv (inv_affine b).
Definition inv_sub_bytes (s : bytes) : bytes := map inv_sbox s.
Fixpoint inv_rounds (n : nat) (w : nat -> bytes) (s : bytes) : bytes :=
  match n with
  | O => s
  | S m => inv_rounds m w (inv_mix_columns (add_round_key w n (inv_sub_bytes (inv_shift_rows s))))
  end.
Definition inv_cipher (nr : nat) (w : nat -> bytes) (block : bytes) : bytes :=
  add_round_key w 0 (inv_sub_bytes (inv_shift_rows (inv_rounds (nr - 1) w (add_round_key w nr block)))).

(** 5.2: the words of the key expansion *)
Definition rot_word (a : bytes) : bytes := tl a ++ firstn 1 a.
Definition rcon (i : nat) : bytes := [Nat.iter (i - 1) xtime x01; x00; x00; x00].
Definition schedule (key : bytes) (w : nat -> bytes) : Prop :=
  let nk := length key / 4 in
  (forall i, i < nk -> w i = firstn 4 (skipn (4 * i) key)) /\
  (forall i, nk <= i < 4 * (nk + 7) ->
     w i = xors (w (i - nk))
       (if i mod nk =? 0 then xors (sub_bytes (rot_word (w (i - 1)))) (rcon (i / nk))
        else if (6 <? nk) && (i mod nk =? 4) then sub_bytes (w (i - 1))
        else w (i - 1))).

(** AES with a key of 16, 24 or 32 bytes: nk + 6 rounds *)
Definition aes_key (key : bytes) : Prop := length key = 16 \/ length key = 24 \/ length key = 32.
Definition aes (key block out : bytes) : Prop :=
  exists w, schedule key w /\ out = cipher (length key / 4 + 6) w block.

(** SP 800-38A, 6.3: CFB with segments of a whole block, the last one cut to the length of the
    message.  [cfb128 E prev p c]: the cipher of [p] after the block [prev] is [c]. *)
Inductive cfb128 (E : bytes -> bytes -> Prop) : bytes -> bytes -> bytes -> Prop :=
| Cfb_last prev o p : length p <= 16 -> E prev o -> cfb128 E prev p (xors p o)
| Cfb_more prev o p p' c' : length p = 16 -> E prev o -> cfb128 E (xors p o) p' c' -> cfb128 E prev (p ++ p') (xors p o ++ c').
