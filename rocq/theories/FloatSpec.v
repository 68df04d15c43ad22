(** float64 numbers as rationals, rounding to the nearest of them, and their texts. *)
From Coq Require Import QArith Qabs SpecFloat.
From Verif Require Import Base FloatModel GrammarSpec CalendarSpec.
From Verif Require Export NumberSpec.
Local Open Scope Z_scope.

(** ** Numbers *)
Definition magnitude (x : float64) : Q :=
  match x with S754_finite _ m e => (inject_Z (Z.pos m) * 2 ^ e)%Q | _ => 0%Q end.
Definition negative (x : float64) : bool :=
  match x with S754_zero s | S754_finite s _ _ | S754_infinity s => s | S754_nan => false end.
Definition signed (neg : bool) (q : Q) : Q := if neg then (- q)%Q else q.
Definition fvalue (x : float64) : Q := signed (negative x) (magnitude x).
Definition even_float (x : float64) : Prop := match x with S754_finite _ m _ => Z.even (Z.pos m) = true | _ => True end.

(** no number is nearer, and of two that are equally near the even one is taken *)
Definition nearest (q : Q) (x : float64) : Prop :=
  float_number x /\
  forall y, float_number y -> (Qabs (q - fvalue x) <= Qabs (q - fvalue y))%Q /\
    ((Qabs (q - fvalue x) == Qabs (q - fvalue y))%Q -> (fvalue y == fvalue x)%Q \/ even_float x).
(** half way behind the largest number, and more *)
Definition too_large (q : Q) : Prop := (2 ^ 1024 - 2 ^ 970 <= Qabs q)%Q.
(** the rational is read as the number *)
Definition read_as (q : Q) (x : float64) : Prop := ~ too_large q /\ nearest q x.

(** ** Texts *)
Definition decimal_number (n e : Z) : Q := (inject_Z n * 10 ^ e)%Q.
Definition exponent_value (t : bytes) (k : Z) : Prop :=
  t = [] /\ k = 0 \/
  exists c sign ds, In c [x65; x45] /\ digits ds /\ t = c :: sign ++ ds /\
    (In sign [[]; [x2b]] /\ k = decimal_value 0 ds \/ sign = [x2d] /\ k = - decimal_value 0 ds).
Definition fraction_digits (f ds : bytes) : Prop := f = [] /\ ds = [] \/ digits ds /\ f = x2e :: ds.
Definition minus (neg : bool) : bytes := if neg then [x2d] else [].
(** the text says: minus or plus [n * 10^e] *)
Definition literal (t : bytes) (neg : bool) (n e : Z) : Prop :=
  exists i f ds x k, whole i /\ fraction_digits f ds /\ exponent_value x k /\
    t = minus neg ++ i ++ f ++ x /\ n = decimal_value 0 (i ++ ds) /\ e = k - Z.of_nat (length ds).

(** ** How Go writes a number *)
(** [n * 10^g], with [d] digits, is the text's value: no fewer digits are read as [x]; of the
    values with [d] digits that are read as [x] this one is nearest to it, the even one if
    two are *)
Definition shortest (x : float64) (n g : Z) (d : nat) : Prop :=
  (1 <= d)%nat /\ 0 <= n /\
  (decimal_number 1 (g + Z.of_nat d - 1) <= magnitude x < decimal_number 1 (g + Z.of_nat d))%Q /\
  read_as (signed (negative x) (decimal_number n g)) x /\
  (forall n' g', 0 <= n' < 10 ^ (Z.of_nat d - 1) -> ~ read_as (signed (negative x) (decimal_number n' g')) x) /\
  (forall n', 0 <= n' -> read_as (signed (negative x) (decimal_number n' g)) x ->
     (Qabs (magnitude x - decimal_number n g) <= Qabs (magnitude x - decimal_number n' g))%Q /\
     ((Qabs (magnitude x - decimal_number n g) == Qabs (magnitude x - decimal_number n' g))%Q -> n' = n \/ Z.even n = true)).
(** no zero at the end of a fraction *)
Definition trimmed (f : bytes) : Prop := f = [] \/ exists f' c, f = x2e :: f' ++ [c] /\ digit c /\ c <> x30 /\ Forall digit f'.
Definition plain_form (t : bytes) : Prop := exists neg i f, whole i /\ trimmed f /\ t = minus neg ++ i ++ f.
Definition scientific_form (t : bytes) : Prop :=
  exists neg c f sign ds, digit c /\ c <> x30 /\ trimmed f /\ In sign [x2b; x2d] /\ whole ds /\ ds <> [x30] /\
    t = minus neg ++ c :: f ++ x65 :: sign :: ds.
(** below the number 1e-6 and from 1e21 on there is an exponent *)
Definition extreme (x : float64) : Prop :=
  (exists y, nearest (decimal_number 1 (-6)) y /\ (magnitude x < fvalue y)%Q) \/ (decimal_number 1 21 <= magnitude x)%Q.
Definition number_text (x : float64) (t : bytes) : Prop :=
  match x with
  | S754_zero s => t = minus s ++ [x30]
  | S754_finite s _ _ =>
      exists n g d n' e', shortest x n g d /\ literal t s n' e' /\ (decimal_number n' e' == decimal_number n g)%Q /\
        (extreme x -> scientific_form t) /\ (~ extreme x -> plain_form t)
  | _ => False
  end.
