(** What cancels and encryption keys are supposed to do. *)
From Verif Require Import Base HashModel EntitiesModel SignModel SignSpec MemSpec TransferModel TransferProofs PiastresSpec CancelModel.

(** a cancel as its builder makes it, with signatures whose text can be read again (for
    the signatures RingSign makes: C16) and a date of the years 0-9999 *)
Definition good_tcancel {C : Curve} (t : tcancel C) : Prop :=
  length (tn_hash t) = 64 /\ length (tn_expense t) = 64 /\ length (tn_lock t) = 64 /\ tn_sigs t <> [] /\
  Forall (fun s => ring_of_string C (ring_string C s) = Ok s) (tn_sigs t) /\ dated (im_created (tn_im t)).

(** the limit of encoding/asn1 *)
Definition below_2GB (b : bytes) : Prop := (Z.of_nat (length b) < 2 ^ 31)%Z.
(** the contract of crypto/rsa and crypto/x509 for the keys [good] (valid keys with their
    precomputed values, as GenerateKey and ParsePKCS1PrivateKey return them) and the messages [fits]
    that a key can encrypt, with 32 random bytes; texts have less than 2^31 bytes *)
Record rsa_laws (R : rsa) (good : rsa_sk R -> Prop) (fits : rsa_sk R -> bytes -> Prop) : Prop := {
  rl_decrypt : forall k rnd m, good k -> fits k m -> 32 <= length rnd -> exists c, rsa_encrypt R rnd (rsa_public R k) m = Ok c /\ rsa_decrypt R k c = Ok m;
  rl_private : forall k, good k -> below_2GB (x509_private R k) -> x509_to_private R (x509_private R k) = Ok k;
  rl_public : forall k, good k -> below_2GB (x509_public R (rsa_public R k)) -> x509_to_public R (x509_public R (rsa_public R k)) = Ok (rsa_public R k);
  rl_generate : forall rnd bits k, rsa_generate R rnd bits = Ok k -> good k }.
(** the key a call was started with *)
Definition call_key {R : rsa} (c : call R) : rsa_sk R :=
  match c with Parsed _ k => k | Written _ k => k | HasPublic _ k _ => k | Returned _ k _ => k end.
