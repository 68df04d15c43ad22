(** Go's float64 values and strconv.FormatFloat(x, 'f', 12, 64).

    Values are the standard library's [spec_float] (sign, mantissa, exponent) with
    53 bits of precision. *)
From Coq Require Import SpecFloat.
From Verif Require Import Base.
Local Open Scope Z_scope.

Notation float64 := spec_float.

(** [x <= 0.0] (false for NaN) *)
Definition f_le_zero (x : float64) : bool := SFleb x (S754_zero false).

(** [float64(n)] of an integer, [x + y] and [x * y]: rounded to the nearest, ties to even.
    Simplification: the compiler does not fuse [x*y + z] into one rounding (as on amd64). *)
Definition f_of_Z (n : Z) : float64 := binary_normalize 53 1024 n 0 false.
Definition f_add (x y : float64) : float64 := SFadd 53 1024 x y.
Definition f_mul (x y : float64) : float64 := SFmul 53 1024 x y.
(** [uint(x)]: truncation towards zero; [None] where the result depends on the
    implementation (out of range, infinite or NaN) *)
Definition f_trunc (m : positive) (e : Z) : Z := if 0 <=? e then Z.pos m * 2 ^ e else Z.pos m / 2 ^ (- e).
Definition f_to_uint (x : float64) : option N :=
  match x with
  | S754_zero _ => Some 0%N
  | S754_finite s m e =>
      let t := f_trunc m e in
      if t =? 0 then Some 0%N
      else if negb s && (t <? 2 ^ 64) then Some (Z.to_N t) else None
  | _ => None
  end.

(** [x / y] *)
Definition f_div (x y : float64) : float64 := SFdiv 53 1024 x y.
(** [int(math.Floor(x))]; the floor of a float64 is a float64.  [None] where the
    conversion depends on the implementation (out of range, infinite or NaN) *)
Definition f_floor_int (x : float64) : option Z :=
  match x with
  | S754_zero _ => Some 0
  | S754_finite s m e =>
      let t := if s then - (if 0 <=? e then Z.pos m * 2 ^ e else - (- Z.pos m / 2 ^ (- e))) else f_trunc m e in
      if (- 2 ^ 63 <=? t) && (t <? 2 ^ 63) then Some t else None
  | _ => None
  end.

(** [n / d] rounded to the nearest integer, ties to even *)
Definition round_half_even (n d : Z) : Z :=
  let q := n / d in
  let r := n mod d in
  if 2 * r <? d then q
  else if d <? 2 * r then q + 1
  else if Z.even q then q else q + 1.

(** the magnitude [m * 2^e] times 10^12, rounded *)
Definition scaled12 (m : positive) (e : Z) : Z :=
  if 0 <=? e then Z.pos m * 2 ^ e * 10 ^ 12
  else round_half_even (Z.pos m * 10 ^ 12) (2 ^ (- e)).

(** at least [n] decimal digits *)
Definition pad_left (n : nat) (s : bytes) : bytes := repeat x30 (n - length s) ++ s.

Definition fixed12 (n : Z) : bytes :=
  itoa (n / 10 ^ 12) ++ [x2e] ++ pad_left 12 (itoa (n mod 10 ^ 12)).

(** strconv.FormatFloat(x, 'f', 12, 64): exact decimal expansion rounded to 12
    places, ties to even *)
Definition format_f12 (x : float64) : bytes :=
  match x with
  | S754_nan => s2b "NaN"
  | S754_infinity false => s2b "+Inf"
  | S754_infinity true => s2b "-Inf"
  | S754_zero s => (if s then [x2d] else []) ++ fixed12 0
  | S754_finite s m e => (if s then [x2d] else []) ++ fixed12 (scaled12 m e)
  end.

Example format_case :
  format_f12 (S754_finite false 23 (-1)) = s2b "11.500000000000" /\
  format_f12 (S754_finite true 3602879701896397 (-55)) = s2b "-0.100000000000".
Proof. vm_compute. split; reflexivity. Qed.
