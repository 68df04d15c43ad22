(** Words for the theorems on key generation. *)
From Coq Require Import ZArith.
From Verif Require Import Base Sha256 Primes25519 Edwards25519Model KeygenModel.
Local Open Scope Z_scope.

(** the 32 bytes that BLAKE2Xb, keyed with SHA-256 of what was drawn, gives *)
Definition output (drawn : bytes) : bytes := xof_read (sha_256 drawn) 32.
(** the number in its last 253 bits, most significant byte first *)
Definition number_in (out : bytes) : Z := le_val (rev out) mod 2 ^ 253.
Definition accepted (drawn : bytes) : Prop := 0 < number_in (output drawn) < l25519.
(** readings of crypto/rand, all of which had to be thrown away *)
Definition wasted (bad : list bytes) : Prop := Forall (fun d => ~ accepted d) bad.
