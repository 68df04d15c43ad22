(** What is used of math.Log and math.Pow. *)
From Coq Require Import QArith SpecFloat.
From Verif Require Import Base FloatModel FloatSpec.
Local Open Scope Z_scope.

(** [log n / log 2] is the logarithm to base 2 up to 2^-46 of its value, for [n] up to 2^40: compared with
    each fraction a/b, as 2^(a/b) <= n means 2^a <= n^b *)
Definition accurate_log (log : float64 -> float64) : Prop := forall n, 2 <= n <= 2 ^ 40 ->
  float_number (log (f_of_Z n)) /\ (0 < fvalue (log (f_of_Z n)))%Q /\
  forall a b, 0 <= a -> 0 < b ->
    (2 ^ a <= n ^ b -> (inject_Z a * fvalue (log (f_of_Z 2)) * (1 - 1 / 2 ^ 46) <= inject_Z b * fvalue (log (f_of_Z n)))%Q) /\
    (n ^ b <= 2 ^ a -> (inject_Z b * fvalue (log (f_of_Z n)) <= inject_Z a * fvalue (log (f_of_Z 2)) * (1 + 1 / 2 ^ 46))%Q).
Definition exact_pow (pow : float64 -> float64 -> float64) : Prop :=
  forall k, 0 <= k <= 40 -> pow (f_of_Z 2) (f_of_Z k) = f_of_Z (2 ^ k).
