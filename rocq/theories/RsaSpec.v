(** What RSA keys, OAEP (RFC 8017) and the texts of keys (X.690, RFC 8017 appendix A) are. *)
From Coq Require Import ZArith Znumtheory.
From Verif Require Import Base Sha256 NumberTheory CancelModel RsaModel.
Local Open Scope Z_scope.

(** ** Keys *)
(** the numbers of a key: distinct primes, their product, exponents inverse modulo each p - 1 *)
Definition key_numbers (k : rsa_key) : Prop :=
  2 <= pk_e (rk_pub k) <= 2 ^ 31 - 1 /\ 0 < rk_d k /\
  Forall prime (rk_primes k) /\ NoDup (rk_primes k) /\ pk_n (rk_pub k) = fold_right Z.mul 1 (rk_primes k) /\
  forall p, In p (rk_primes k) -> (pk_e (rk_pub k) * rk_d k) mod (p - 1) = 1.
(** the values kept for the Chinese remainders *)
Inductive right_more (d : Z) : Z -> list Z -> list crt_value -> Prop :=
  | right_none : forall r, right_more d r [] []
  | right_one : forall r p ps c vs, 0 <= c < p -> (p | c * r - 1) -> right_more d (r * p) ps vs ->
      right_more d r (p :: ps) (CrtValue (d mod (p - 1)) (Some c) r :: vs).
Definition right_values (k : rsa_key) (v : crt_values) : Prop :=
  cr_dp v = rk_d k mod (rk_p k - 1) /\ cr_dq v = rk_d k mod (rk_q k - 1) /\
  (exists x, cr_qinv v = Some x /\ 0 <= x < rk_p k /\ (rk_p k | x * rk_q k - 1)) /\
  right_more (rk_d k) (rk_p k * rk_q k) (rk_more k) (cr_more v).
(** a key as GenerateKey and ParsePKCS1PrivateKey make it from primes *)
Definition ready_key (k : rsa_key) : Prop := key_numbers k /\ exists v, rk_pre k = Some v /\ right_values k v.
(** ... or without those values *)
Definition bare_key (k : rsa_key) : Prop := key_numbers k /\ rk_pre k = None.

(** crypto/rand.Prime returns primes of that many bits *)
Definition prime_source (rand_prime : bytes -> Z -> res (Z * bytes)) : Prop :=
  forall rnd bits p rest, rand_prime rnd bits = Ok (p, rest) -> prime p /\ 2 ^ (bits - 1) <= p < 2 ^ bits.
(** the numbers drawn for the blinding: one of them has an inverse (0 is replaced by 1) *)
Definition usable (n : Z) (draws : list Z) : Prop := exists r, In r draws /\ (r = 0 \/ Z.gcd r n = 1).

(** ** Numbers as octets *)
Fixpoint octets_val (b : bytes) : Z :=
  match b with [] => 0 | c :: b => Z.of_N (b2n c) * 256 ^ Z.of_nat (length b) + octets_val b end.
(** the number of octets of the modulus *)
Definition octets_of (n : Z) (k : nat) : Prop := (1 <= k)%nat /\ 256 ^ (Z.of_nat k - 1) <= n < 256 ^ Z.of_nat k.

(** ** OAEP with SHA-256 and the empty label *)
Definition xored (a b : bytes) : bytes := map (fun p => n2b (N.lxor (b2n (fst p)) (b2n (snd p)))) (combine a b).
Definition four (i : nat) : bytes := map (fun s => n2b (N.of_nat i / 256 ^ s)) [3; 2; 1; 0]%N.
Definition mask (seed : bytes) (len : nat) : bytes :=
  firstn len (concat (map (fun i => sha_256 (seed ++ four i)) (seq 0 ((len + 31) / 32)))).
Definition oaep (k : nat) (seed msg : bytes) : bytes :=
  let db := xored (sha_256 [] ++ repeat x00 (k - length msg - 66) ++ [x01] ++ msg) (mask seed (k - 33)) in
  [x00] ++ xored seed (mask db 32) ++ db.

(** ** DER *)
(** two's complement *)
Definition twos (b : bytes) : Z :=
  match b with
  | [] => 0
  | c :: _ => octets_val b - if (b2n c <? 128)%N then 0 else 256 ^ Z.of_nat (length b)
  end.
(** the shortest octets of a number *)
Definition shortest (b : bytes) (z : Z) : Prop :=
  b <> [] /\ twos b = z /\ forall b', b' <> [] -> twos b' = z -> (length b <= length b')%nat.
(** the length of a content: short, or the number of octets and the octets *)
Definition length_octets (n : nat) (b : bytes) : Prop :=
  ((n < 128)%nat /\ exists c, b = [c] /\ Z.of_N (b2n c) = Z.of_nat n) \/
  ((128 <= n)%nat /\ exists c ds, b = c :: ds /\ Z.of_N (b2n c) = 128 + Z.of_nat (length ds) /\
                                   octets_val ds = Z.of_nat n /\ hd x00 ds <> x00).
(** tag, length, content *)
Definition element (tag : byte) (content b : bytes) : Prop := exists l, length_octets (length content) l /\ b = tag :: l ++ content.
Definition integer (z : Z) (b : bytes) : Prop := exists c, shortest c z /\ element x02 c b.
Fixpoint integers (zs : list Z) (b : bytes) : Prop :=
  match zs with
  | [] => b = []
  | z :: zs => exists b1 b2, b = b1 ++ b2 /\ integer z b1 /\ integers zs b2
  end.
(** OtherPrimeInfos *)
Fixpoint other_primes (r d : Z) (ps : list Z) (b : bytes) : Prop :=
  match ps with
  | [] => b = []
  | p :: ps => exists c b0 b1 b2, 0 <= c < p /\ (p | c * r - 1) /\ integers [p; d mod (p - 1); c] b0 /\ element x30 b0 b1 /\
                                  b = b1 ++ b2 /\ other_primes (r * p) d ps b2
  end.
(** RSAPrivateKey *)
Definition private_text (k : rsa_key) (b : bytes) : Prop :=
  exists qinv b1 b2, 0 <= qinv < rk_p k /\ (rk_p k | qinv * rk_q k - 1) /\
    integers [match rk_more k with [] => 0 | _ => 1 end; pk_n (rk_pub k); pk_e (rk_pub k); rk_d k; rk_p k; rk_q k;
              rk_d k mod (rk_p k - 1); rk_d k mod (rk_q k - 1); qinv] b1 /\
    match rk_more k with
    | [] => b2 = []
    | _ => exists b3, other_primes (rk_p k * rk_q k) (rk_d k) (rk_more k) b3 /\ element x30 b3 b2
    end /\
    element x30 (b1 ++ b2) b.
(** RSAPublicKey, and anything after the two numbers *)
Definition public_text (pub : public_key) (junk b : bytes) : Prop :=
  exists b1, integers [pk_n pub; pk_e pub] b1 /\ element x30 (b1 ++ junk) b.
(** what is checked of the numbers of a key that is read: not that they are primes, nor that
    they are distinct *)
Definition checked_numbers (k : rsa_key) : Prop :=
  2 <= pk_e (rk_pub k) <= 2 ^ 31 - 1 /\ 0 < rk_d k /\ Forall (fun p => 1 < p) (rk_primes k) /\
  pk_n (rk_pub k) = fold_right Z.mul 1 (rk_primes k) /\ forall p, In p (rk_primes k) -> (pk_e (rk_pub k) * rk_d k) mod (p - 1) = 1.
(** the text of the numbers of a key of two primes with any version and any three values after the primes *)
Definition loose_text (version x y z : Z) (k : rsa_key) (b : bytes) : Prop :=
  exists b1, integers [version; pk_n (rk_pub k); pk_e (rk_pub k); rk_d k; rk_p k; rk_q k; x; y; z] b1 /\ element x30 b1 b.

(** ** All texts of private keys that are read *)
(** the number of a tag from 31 on, in at most five groups of seven bits *)
Definition septets (b : bytes) : Z := fold_left (fun acc c => acc * 128 + Z.of_N (b2n c) mod 128) b 0.
Definition high_tag (b : bytes) : Prop :=
  exists ds c, b = ds ++ [c] /\ Forall (fun d => 128 <= b2n d)%N ds /\ (b2n c < 128)%N /\ (length b <= 5)%nat /\ 31 <= septets b <= 2 ^ 31 - 1.
(** a text that begins with the tag [c] and a length *)
Definition heading (c : byte) (b : bytes) : Prop :=
  exists t n l rest, b = c :: t ++ l ++ rest /\ (if (b2n c mod 32 =? 31)%N then high_tag t else t = []) /\ Z.of_nat n < 2 ^ 31 /\ length_octets n l.
(** where a field with the tag [t] could be, there is nothing or a heading with another tag *)
Definition left_out (t : byte) (b : bytes) : Prop := b = [] \/ exists c, c <> t /\ heading c b.
Definition maybe_integer (b rest : bytes) : Prop := (left_out x02 b /\ rest = b) \/ exists z e, integer z e /\ b = e ++ rest.
(** further primes, each with two integers that are not used, and anything behind them *)
Fixpoint prime_infos (ps : list Z) (b : bytes) : Prop :=
  match ps with
  | [] => b = []
  | p :: ps => exists x y c junk e b', integers [p; x; y] c /\ element x30 (c ++ junk) e /\ b = e ++ b' /\ prime_infos ps b'
  end.
Definition maybe_primes (ps : list Z) (b : bytes) : Prop :=
  (left_out x30 b /\ ps = []) \/ exists c e junk, b = e ++ junk /\ element x30 c e /\ prime_infos ps c.
Definition read_text (k : rsa_key) (b : bytes) : Prop :=
  exists version b1 r1 r2 r3 r4, - 2 ^ 63 <= version <= 1 /\
    integers [version; pk_n (rk_pub k); pk_e (rk_pub k); rk_d k; rk_p k; rk_q k] b1 /\ element x30 (b1 ++ r1) b /\
    maybe_integer r1 r2 /\ maybe_integer r2 r3 /\ maybe_integer r3 r4 /\ maybe_primes (rk_more k) r4.
