(** The numbers among the float64 values. *)
From Coq Require Import ZArith SpecFloat.
From Verif Require Import FloatModel.
Local Open Scope Z_scope.

(** 53 bits, exponents from -1074 to 971, no bit to spare; neither NaN nor infinite *)
Definition float_number (x : float64) : Prop :=
  match x with
  | S754_zero _ => True
  | S754_finite _ m e => Z.pos m < 2 ^ 53 /\ -1074 <= e <= 971 /\ (e = -1074 \/ 2 ^ 52 <= Z.pos m)
  | _ => False
  end.
