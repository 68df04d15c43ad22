(** C103: what crypto/rsa and crypto/x509 do for libs/cryptography/pk/encryption. *)
From Coq Require Import ZArith Znumtheory Lia ZifyBool ZifyNat ZifyN.
From Verif Require Import Base BaseFacts HashModel Edwards25519Model KeygenModel NumberTheory Primes25519 CancelModel CancelSpec RsaModel RsaSpec RsaNumbers RsaCrypt RsaText RsaKeys RsaExact.
Local Open Scope Z_scope.

Lemma key_cases : forall k, ready_key k \/ bare_key k -> key_numbers k /\ (rk_pre k = None \/ exists v, rk_pre k = Some v /\ right_values k v).
Proof. intros k [(K & v & E & V)|[K E]]; (split; [exact K|]); [right; exists v; auto|left; exact E]. Qed.

(** A cipher is made exactly of the messages that fit, and it is the power of the padded
    message, padded with the first 32 random bytes. *)
Theorem C103_encrypts : forall rnd pub msg c len, octets_of (pk_n pub) len ->
  (encrypt_oaep rnd pub msg = Ok c <->
   2 <= pk_e pub <= 2 ^ 31 - 1 /\ (66 + length msg <= len)%nat /\ (32 <= length rnd)%nat /\ length c = len /\
   octets_val c = octets_val (oaep len (firstn 32 rnd) msg) ^ pk_e pub mod pk_n pub).
Proof. exact encrypt_iff. Qed.
Print Assumptions C103_encrypts.
(** A message is what a key decrypts exactly when the cipher is a power of the message padded
    with some 32 bytes, with the Chinese remainders, with any number of primes, and with the
    blinding, if that found a number. *)
Theorem C103_decrypts_exactly : forall k, ready_key k \/ bare_key k -> forall draws cipher msg len, octets_of (pk_n (rk_pub k)) len ->
  (decrypt_oaep draws k cipher = Ok msg <->
   usable (pk_n (rk_pub k)) draws /\ (length cipher <= len)%nat /\ octets_val cipher <= pk_n (rk_pub k) /\
   exists seed, length seed = 32%nat /\ (66 + length msg <= len)%nat /\ octets_val (oaep len seed msg) < pk_n (rk_pub k) /\
     (octets_val (oaep len seed msg) ^ pk_e (rk_pub k) - octets_val cipher) mod pk_n (rk_pub k) = 0).
Proof. intros k H. destruct (key_cases k H) as [K V]. exact (decrypt_oaep_iff k K V). Qed.
Print Assumptions C103_decrypts_exactly.
Theorem C103_roundtrip : forall k, ready_key k \/ bare_key k -> forall rnd draws msg len, octets_of (pk_n (rk_pub k)) len ->
  (66 + length msg <= len)%nat -> (32 <= length rnd)%nat -> usable (pk_n (rk_pub k)) draws ->
  exists c, encrypt_oaep rnd (rk_pub k) msg = Ok c /\ length c = len /\ decrypt_oaep draws k c = Ok msg.
Proof. intros k H. destruct (key_cases k H) as [K V]. exact (roundtrip k K V). Qed.
Print Assumptions C103_roundtrip.
(** A new key has the number of bits asked for; more rounds of GenerateKey than there are
    random bytes change nothing. *)
Theorem C103_generated : forall rand_prime, prime_source rand_prime -> forall rnd bits k, generate_key rand_prime rnd bits = Ok k ->
  ready_key k /\ pk_e (rk_pub k) = 65537 /\ rk_more k = [] /\ 2 ^ (bits - 1) <= pk_n (rk_pub k) < 2 ^ bits.
Proof.
  intros rand_prime PS rnd bits k H. unfold generate_key in H. destruct (Z.ltb_spec bits 12) as [L|L]; [discriminate|]. exact (generated rand_prime PS _ _ _ _ L H).
Qed.
Print Assumptions C103_generated.
Theorem C103_rounds : forall rand_prime, (forall rnd bits p rest, rand_prime rnd bits = Ok (p, rest) -> (length rest < length rnd)%nat) ->
  forall fuel rnd bits, (length rnd < fuel)%nat -> 12 <= bits -> generate_key rand_prime rnd bits = generate_rounds rand_prime fuel rnd bits.
Proof.
  intros rand_prime Cs fuel rnd bits L B. unfold generate_key. destruct (Z.ltb_spec bits 12); [lia|]. symmetry. apply rounds_enough; assumption.
Qed.
Print Assumptions C103_rounds.
(** The texts are DER, and keys survive them; every DER text of a key is read as it. *)
Theorem C103_text : forall k, ready_key k ->
  (below_2GB (marshal_private k) -> private_text k (marshal_private k) /\ parse_private (marshal_private k) = Ok k) /\
  (forall b, private_text k b -> below_2GB b -> parse_private b = Ok k) /\
  (below_2GB (marshal_public (rk_pub k)) -> public_text (rk_pub k) [] (marshal_public (rk_pub k)) /\ parse_public (marshal_public (rk_pub k)) = Ok (rk_pub k)).
Proof.
  intros k R. destruct (key_cases k (or_introl R)) as [K V]. pose proof (n_pos k K) as N. pose proof K as (E & _). split; [|split].
  - intro S. pose proof (marshal_private_text k K V S) as T. split; [exact T|]. apply ready_text; assumption.
  - intros b T S. apply ready_text; assumption.
  - intro S. split; [apply marshal_public_text; [lia|lia|exact S]|apply public_back; [exact N|exact E|exact S]].
Qed.
Print Assumptions C103_text.
(** Public keys are read exactly from their DER texts with anything after the two numbers. *)
Theorem C103_public_exactly : forall b pub, below_2GB b ->
  (parse_public b = Ok pub <-> (exists junk, public_text pub junk b) /\ 0 < pk_n pub /\ 0 < pk_e pub <= 2 ^ 31 - 1).
Proof. exact parse_public_iff. Qed.
Print Assumptions C103_public_exactly.
(** A private key that is read has the numbers of the text, these have been checked, and the
    remaining values are computed and not read. *)
Theorem C103_private_read : forall b k, parse_private b = Ok k ->
  checked_numbers k /\ k = precompute (RsaKey (rk_pub k) (rk_d k) (rk_p k) (rk_q k) (rk_more k) None) /\
  exists version b1 b2, integers [version; pk_n (rk_pub k); pk_e (rk_pub k); rk_d k; rk_p k; rk_q k] b1 /\ element x30 (b1 ++ b2) b /\ version <= 1.
Proof.
  intros b k H. destruct (parse_private_inv b k H) as (v & b1 & b2 & m & I & El & V & _ & G & E). split; [exact G|]. split; [exact E|]. exists v, b1, b2. auto.
Qed.
Print Assumptions C103_private_read.
(** If the numbers read as primes are distinct primes then the key is as good as a new one. *)
(** Exactly which texts are read as private keys: of the three values after the primes each may
    be missing or be any integer, and anything may stand behind. *)
Theorem C103_private_exactly : forall b k, below_2GB b ->
  (parse_private b = Ok k <->
   checked_numbers k /\ k = precompute (RsaKey (rk_pub k) (rk_d k) (rk_p k) (rk_q k) (rk_more k) None) /\ read_text k b).
Proof. exact private_iff. Qed.
Print Assumptions C103_private_exactly.
Theorem C103_read_ready : forall b k, parse_private b = Ok k -> Forall prime (rk_primes k) -> NoDup (rk_primes k) -> ready_key k.
Proof.
  intros b k H F N. destruct (parse_private_inv b k H) as (_ & _ & _ & _ & _ & _ & _ & _ & (E & D & _ & Pn & C) & Ek). rewrite Ek.
  apply precompute_right; [|reflexivity]. unfold key_numbers, rk_primes in *. cbn [rk_pub rk_d rk_p rk_q rk_more]. auto 10.
Qed.
Print Assumptions C103_read_ready.
Theorem C103_no_panic :
  (forall rnd pub msg, encrypt_oaep rnd pub msg <> Panic) /\
  (forall k draws cipher, ready_key k \/ bare_key k -> decrypt_oaep draws k cipher <> Panic) /\
  (forall b, parse_private b <> Panic) /\ (forall b, parse_public b <> Panic).
Proof.
  split; [exact encrypt_no_panic|]. split; [|split; [exact parse_private_no_panic|exact parse_public_no_panic]].
  intros k draws cipher H. destruct (key_cases k H) as [K V]. exact (decrypt_no_panic k K V draws cipher).
Qed.
Print Assumptions C103_no_panic.
(** The contract of C74. *)
Theorem C103_contract : forall rand_prime draws, prime_source rand_prime -> (forall k c, usable (pk_n (rk_pub k)) (draws k c)) ->
  rsa_laws (go_rsa rand_prime draws) ready_key (fun k m => exists len, octets_of (pk_n (rk_pub k)) len /\ (66 + length m <= len)%nat).
Proof.
  intros rand_prime draws PS U. constructor; cbn [go_rsa rsa_sk rsa_pk rsa_public rsa_generate rsa_encrypt rsa_decrypt x509_private x509_to_private x509_public x509_to_public].
  - intros k rnd m R (len & O & L) Lr. destruct (C103_roundtrip k (or_introl R) rnd [1] m len O L Lr) as (c & E & _ & _).
    { exists 1. split; [left; reflexivity|]. right. apply Z.gcd_1_l. }
    exists c. split; [exact E|]. destruct (C103_roundtrip k (or_introl R) rnd (draws k c) m len O L Lr (U k c)) as (c' & E' & _ & D). assert (c' = c) by congruence. subst c'. exact D.
  - intros k R S. destruct (C103_text k R) as (T & _ & _). exact (proj2 (T S)).
  - intros k R S. destruct (C103_text k R) as (_ & _ & T). exact (proj2 (T S)).
  - intros rnd bits k H. apply (C103_generated rand_prime PS rnd bits k H).
Qed.
Print Assumptions C103_contract.
(** It is not so that a key that is read decrypts or refuses: a text with two equal primes (or
    any two equal odd numbers) is read, and decrypting with it is a nil dereference. *)
Theorem C103_refuted_equal_primes : forall p e d, 2 < p -> 2 <= e <= 2 ^ 31 - 1 -> 0 < d -> (e * d) mod (p - 1) = 1 ->
  forall version x y z b, loose_text version x y z (RsaKey (PublicKey (p * p) e) d p p [] None) b -> - 2 ^ 63 <= version <= 1 -> below_2GB b ->
  exists k, parse_private b = Ok k /\ rk_pub k = PublicKey (p * p) e /\
    forall draws cipher len, octets_of (p * p) len -> (66 <= len)%nat -> usable (p * p) draws -> (length cipher <= len)%nat -> octets_val cipher <= p * p ->
      decrypt_oaep draws k cipher = Panic.
Proof. exact equal_primes. Qed.
Print Assumptions C103_refuted_equal_primes.
(** A private key has many texts: the version and the values after the primes are not looked at. *)
Theorem C103_refuted_unique : forall k, ready_key k -> rk_more k = [] ->
  forall version x y z b, loose_text version x y z k b -> - 2 ^ 63 <= version <= 1 -> below_2GB b -> parse_private b = Ok k.
Proof. exact loose. Qed.
Print Assumptions C103_refuted_unique.

(** a key of three primes *)
Definition big_key : rsa_key :=
  RsaKey (PublicKey (p25519 * l25519 * 4194319) 65537)
    551644273379316853813130097963384194368309577346629458168679024778575483221876903764702348371723186093462123726097688596763561499946563223940242840151650753665
    p25519 l25519 [4194319] None.
Lemma big_key_bare : bare_key big_key.
Proof.
  split; [|reflexivity]. unfold key_numbers, rk_primes. cbn [big_key rk_pub rk_d rk_p rk_q rk_more pk_e pk_n].
  split; [lia|]. split; [lia|]. split.
  { constructor; [exact p25519_prime|]. constructor; [exact l25519_prime|]. constructor; [apply trial_prime; vm_compute; reflexivity|constructor]. }
  split; [repeat constructor; cbn [In]; rewrite ?p25519_eq, ?l25519_eq; lia|]. split; [cbn [fold_right]; ring|].
  intros p [<-|[<-|[<-|[]]]]; vm_compute; reflexivity.
Qed.
Example C103_case : bare_key big_key /\ ready_key (precompute big_key) /\ octets_of (pk_n (rk_pub big_key)) 67 /\ usable (pk_n (rk_pub big_key)) [p25519; 0].
Proof.
  pose proof big_key_bare as [K E]. split; [split; [exact K|exact E]|]. split; [apply precompute_right; assumption|]. split.
  - split; [lia|]. change (Z.of_nat 67 - 1) with 66. change (Z.of_nat 67) with 67. vm_compute. split; [discriminate|reflexivity].
  - exists 0. split; [right; left; reflexivity|left; reflexivity].
Qed.
(** two primes of six bits, by the first random byte *)
Definition toy_prime (rnd : bytes) (bits : Z) : res (Z * bytes) :=
  match rnd with
  | c :: rnd => if bits =? 6 then Ok (if beq c x00 then 61 else 53, rnd) else Err
  | [] => Err
  end.
Lemma toy_prime_source : prime_source toy_prime.
Proof.
  intros [|c rnd] bits p rest H; [discriminate|]. unfold toy_prime in H. destruct (Z.eqb_spec bits 6) as [->|]; [|discriminate].
  assert (Ep : p = 61 \/ p = 53) by (destruct (beq c x00); [left|right]; congruence).
  split; [apply trial_prime; destruct Ep as [->| ->]; vm_compute; reflexivity|]. destruct Ep as [->| ->]; vm_compute; split; (discriminate || reflexivity).
Qed.
Example C103_generated_case : prime_source toy_prime /\
  generate_key toy_prime [x01; x01; x00; x07] 12 = Ok (precompute (RsaKey (PublicKey 3233 65537) 2753 61 53 [] None)) /\
  generate_key toy_prime [x01; x01; x00] 12 = Err.
Proof. split; [exact toy_prime_source|]. split; vm_compute; reflexivity. Qed.
Definition small_text (n e d p q x y z : Z) (rest : bytes) : bytes :=
  der x30 (der_int 0 ++ der_int n ++ der_int e ++ der_int d ++ der_int p ++ der_int q ++ der_int x ++ der_int y ++ der_int z ++ rest).
Example C103_text_case :
  marshal_private (precompute (RsaKey (PublicKey 3233 17) 2753 61 53 [] None)) = small_text 3233 17 2753 61 53 53 49 38 [] /\
  parse_private (small_text 3233 17 2753 61 53 1 2 3 []) = Ok (precompute (RsaKey (PublicKey 3233 17) 2753 61 53 [] None)) /\
  parse_private (small_text 3233 17 2753 61 53 53 49 38 [x05; x00]) = Ok (precompute (RsaKey (PublicKey 3233 17) 2753 61 53 [] None)) /\
  parse_private (der x30 (der_int 0 ++ der_int 3233 ++ der_int 17 ++ der_int 2753 ++ der_int 61 ++ der_int 53 ++ [x7f; x87; xff; xff; xff; x7f; x00])) =
    Ok (precompute (RsaKey (PublicKey 3233 17) 2753 61 53 [] None)) /\
  parse_private (der x30 (der_int 0 ++ der_int 3233 ++ der_int 17 ++ der_int 2753 ++ der_int 61 ++ der_int 53 ++ [x7f; x88; x80; x80; x80; x00; x00])) = Err /\
  parse_private (small_text 3233 17 2754 61 53 53 49 38 []) = Err /\
  (exists k, parse_private (small_text 121 3 7 11 11 1 1 1 []) = Ok k /\ exists v, rk_pre k = Some v /\ cr_qinv v = None) /\
  parse_public (marshal_public (PublicKey 3233 17)) = Ok (PublicKey 3233 17).
Proof. repeat match goal with |- _ /\ _ => split end; try (vm_compute; reflexivity). eexists. split; [vm_compute; reflexivity|]. eexists. split; reflexivity. Qed.
(** numbers for the key that panics *)
Example C103_refuted_case : let p := 2 ^ 300 in let d := 1078460064862255881948460565035631689793594440621740239686317121187252513204578996512585848 in
  2 < p /\ 0 < d /\ (65537 * d) mod (p - 1) = 1 /\ octets_of (p * p) 76.
Proof. cbv zeta. split; [vm_compute; reflexivity|]. split; [reflexivity|]. split; [vm_compute; reflexivity|]. split; [lia|]. vm_compute. split; [discriminate|reflexivity]. Qed.
