(** What mining is supposed to achieve. *)
From Coq Require Import SpecFloat.
From Verif Require Import Base HashModel FloatModel MinerModel.

(** the hash starts with [d] zero bytes *)
Definition leading_zeros (d : N) (h : hash) : Prop := forall i, i < N.to_nat d -> nth_error h i = Some x00.
(** the candidates in the order in which they are tried: the numbers up to 2^31 - 1, then
    the same numbers after "0", after "00", ... *)
Definition candidate (k : nat) (i : N) : bytes := repeat x30 k ++ itoa (Z.of_N i).
Definition tried (i : N) : Prop := (i <= 2147483647)%N.
Definition solves (d : N) (h : hash) (k : nat) (i : N) : Prop := tried i /\ leading_zeros d (from_bytes (h ++ candidate k i)).
Definition before (k : nat) (i : N) (k' : nat) (i' : N) : Prop := k < k' \/ (k = k' /\ (i < i')%N).
Definition first_solution (d : N) (h : hash) (k : nat) (i : N) : Prop :=
  solves d h k i /\ forall k' i', before k' i' k i -> ~ solves d h k' i'.
(** the difficulty does not depend on how the implementation converts floats that are no
    uint *)
Definition determined (base : N) (increase : float64) (n : nat) : Prop :=
  forall w w', difficulty w base increase n = difficulty w' base increase n.
(** a positive float64, infinity included *)
Definition positive (x : float64) : Prop := valid_binary 53 1024 x = true /\ SFltb (S754_zero false) x = true.
