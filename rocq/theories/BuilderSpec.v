(** What the builders of the domain answer, written without their code: each accepts the
    complete and consistent requests and gives the object made of exactly what it was
    given; any other request gets an error. *)
From Coq Require Import SpecFloat.
From Verif Require Import Base Sha512 HashModel HashTreeModel EntitiesModel SignModel FloatModel PiastresModel PiastresSpec
  JsonModel TransferModel BucketModel IdentityModel CancelModel PeersModel.

(** [x] if [ok], an error otherwise *)
Definition builds {A} (r : res A) (ok : Prop) (x : A) : Prop := (ok -> r = Ok x) /\ (~ ok -> r = Err).

(** the hash of some parts (libs/hash): the parts one after the other, digested unless
    they make 64 bytes *)
Definition hash_of (parts : list bytes) : hash :=
  if Nat.eqb (length (concat parts)) 64 then concat parts else sha512 (concat parts).
(** hash and creation time of a new object *)
Definition stamp (parts : list bytes) (now : Z) (created : option Z) : immutable :=
  Immutable (hash_of parts) (time_of now created).
Definition given {A} (o : option A) : list A := match o with Some a => [a] | None => [] end.

(** the amounts of some bills as a uint64 *)
Definition purse (from : list bill) : N := (value from mod 2 ^ 64)%N.
(** a bill for a lock *)
Definition bill_of (l : lock) (amount : N) (time : Z) : bill := Bill (Immutable (hash_of [lk_hash l; dec amount]) time) l amount.

(** what [x <= 0] is true of *)
Definition up_to_zero (x : float64) : Prop :=
  match x with
  | S754_zero _ => True
  | S754_infinity s | S754_finite s _ _ => s = true
  | S754_nan => False
  end.

Section WithCurve.
Context {C : Curve}.
(** a ring signature with a scalar for every key *)
Definition long_enough (s : ringsig C) : Prop := length (rs_ring s) <= length (rs_s s).
(** the number of transactions in the first and last block of a chain *)
Definition at_least (root : mined_block (C := C)) (head : mined_link (C := C)) : N :=
  (N.of_nat (length (bk_trx (mb_block root)) + length (bk_trx (ln_next (ml_link head)))) mod 2 ^ 64)%N.
End WithCurve.
