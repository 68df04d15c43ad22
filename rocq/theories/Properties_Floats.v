(** C100: the texts of float64 values (FloatText.v) against rounding over the rationals
    (FloatSpec.v). *)
From Coq Require Import QArith SpecFloat.
From Verif Require Import Base JsonModel FloatModel MemberSpec MemberProofs GrammarSpec FloatText FloatSpec FloatParse FloatUnique MemJsonProofs.
Local Open Scope Z_scope.

(** a number literal is read as the nearest number, the even one of two *)
Theorem C100_read : forall t x, number t -> (parse_float t = Ok x <->
  exists neg n e, literal t neg n e /\ negative x = neg /\ read_as (signed neg (decimal_number n e)) x).
Proof. exact parse_float_iff. Qed.
(** ... unless it is too large: then it is an error *)
Theorem C100_read_err : forall t, number t -> (parse_float t = Err <->
  exists neg n e, literal t neg n e /\ too_large (decimal_number n e)).
Proof. exact parse_float_err. Qed.
(** every number is written as the shortest text that is read as it *)
Theorem C100_write : forall x t, float_number x -> (float_text x = Ok t <-> number_text x t).
Proof. exact float_text_iff. Qed.
Theorem C100_write_exists : forall x, (exists t, float_text x = Ok t) <-> float_number x.
Proof. exact float_text_ok. Qed.
Theorem C100_write_err : forall x, float_text x = Err <-> ~ float_number x.
Proof. exact float_text_err. Qed.
(** there is one such text *)
Theorem C100_one_text : forall x t t', float_number x -> number_text x t -> number_text x t' -> t = t'.
Proof. exact number_text_unique. Qed.
(** it is read back *)
Theorem C100_round_trip : forall x t, float_number x -> float_text x = Ok t -> number t /\ parse_float t = Ok x.
Proof. exact float_text_reads. Qed.

(** a member is a number, or null or absent and then 0; anything else is an error *)
Theorem C100_member : forall js,
  (forall x, dfloat js = Ok x <-> finally (fun j x => exists t, j = JNum t /\ parse_float t = Ok x) (S754_zero false) js x) /\ dfloat js <> Panic.
Proof.
  intro js. split; [|apply dfloat_no_panic]. intro x. unfold dfloat. rewrite dlast_iff. apply finally_ext. intros j a. split.
  - intro H. destruct j; try discriminate H. eauto.
  - intros (t & -> & H). exact H.
Qed.

Definition f_tie : float64 := S754_finite false 4503599627370498 (-3).
Definition f_least : float64 := S754_finite false 1 (-1074).
Definition f_most : float64 := S754_finite true 9007199254740991 971.
Example C100_case :
  float_text f_tie = Ok (s2b "562949953421312.2") /\ parse_float (s2b "562949953421312.25") = Ok f_tie /\
  float_text f_least = Ok (s2b "5e-324") /\ parse_float (s2b "3e-324") = Ok f_least /\ parse_float (s2b "2e-324") = Ok (S754_zero false) /\
  float_text f_most = Ok (s2b "-1.7976931348623157e+308") /\ parse_float (s2b "1.7976931348623159e308") = Err /\
  float_text (S754_infinity false) = Err.
Proof. vm_compute. repeat match goal with |- _ /\ _ => split end; reflexivity. Qed.
Example C100_case_numbers : float_number f_tie /\ float_number f_least /\ float_number f_most.
Proof. unfold float_number, f_tie, f_least, f_most. repeat match goal with |- _ /\ _ => split end; (reflexivity || discriminate || (left; reflexivity) || (right; discriminate)). Qed.
Example C100_case_number : number (s2b "-1.50e+2") /\ literal (s2b "-1.50e+2") true 150 0.
Proof.
  assert (L : literal (s2b "-1.50e+2") true 150 0).
  { exists [x31], (s2b ".50"), (s2b "50"), (s2b "e+2"), 2. split; [right; exists x31, []; split; [split; discriminate|split; [constructor|reflexivity]]|].
    assert (D : digit x35 /\ digit x30 /\ digit x32) by (repeat match goal with |- _ /\ _ => split end; unfold digit; split; discriminate).
    destruct D as (D1 & D2 & D3).
    split; [right; split; [split; [discriminate|repeat constructor; apply D1 || apply D2]|reflexivity]|].
    split; [right; exists x65, [x2b], [x32]; split; [left; reflexivity|split; [split; [discriminate|repeat constructor; apply D3]|split; [reflexivity|left; split; [right; left; reflexivity|reflexivity]]]]|].
    split; [reflexivity|split; reflexivity]. }
  split; [apply number_literal; eauto|exact L].
Qed.

Print Assumptions C100_read.
Print Assumptions C100_read_err.
Print Assumptions C100_write.
Print Assumptions C100_write_exists.
Print Assumptions C100_write_err.
Print Assumptions C100_one_text.
Print Assumptions C100_round_trip.
Print Assumptions C100_member.
