(** C03: the length of a padded block, computed in float64 as the code does. *)
From Coq Require Import ZArith SpecFloat.
From Verif Require Import Base FloatModel HashTreeModel PaddingModel PaddingSpec PaddingProofs.
Local Open Scope Z_scope.

(** With any logarithm that is accurate to 2^-46 of its value, and any power that is exact on small powers of two,
    the tree of up to 2^40 blocks is the one of C03_build; the result of converting a float64 outside of
    uint never matters. *)
Theorem C03_padding : forall log pow wild, accurate_log log -> exact_pow pow ->
  forall data, Z.of_nat (length data) <= 2 ^ 40 -> hashtree_float log pow wild data = hashtree_of_blocks data.
Proof. exact hashtree_float_exact. Qed.
Print Assumptions C03_padding.

(** Such functions exist; three blocks are padded. *)
Example C03_padding_case : accurate_log log2_scaled /\ exact_pow pow2_of /\ is_pow2 3 = false /\
  next_float (fun x => if SFeqb x (f_of_Z 2) then f_of_Z 1 else f_div (f_of_Z 317) (f_of_Z 200)) pow2_of (fun _ => 0%N) 3 = 4%N.
Proof. split; [exact scaled_log|]. split; [exact pow2_exact|]. split; vm_compute; reflexivity. Qed.
