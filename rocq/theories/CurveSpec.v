(** Words for the theorems on the curve: repeated addition, key texts. *)
From Coq Require Import ZArith.
From Verif Require Import Base SignModel Edwards25519Model Ed25519Curve Primes25519.
Local Open Scope Z_scope.

(** [p] added to itself [n] times, with the method Add *)
Definition times (n : Z) (p : point) : point := N.iter (Z.to_N n) (point_add p) point_null.

(** the largest number that geScalarMult multiplies by: 8, and 63 sevens, in base 16 *)
Definition last_multiplier : Z := 2 ^ 255 + 7 * ((2 ^ 252 - 1) / 15).

(** a private key as PrivateKeyFactory makes them, and as String prints them *)
Definition generated (x : bytes) : Prop := length x = 32%nat /\ le_val x < l25519.

(** the points that a private key can have as public key *)
Definition has_private_key (p : point) : Prop := exists n, 0 <= n < l25519 /\ p = times n point_base.

(** the point of order two *)
Definition order_two (t : point) : Prop := t <> point_null /\ point_add t t = point_null.
