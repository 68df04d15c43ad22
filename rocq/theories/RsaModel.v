(** What libs/cryptography/pk/encryption calls of the standard library: crypto/rsa
    (GenerateKey, EncryptOAEP, DecryptOAEP), crypto/x509 (MarshalPKCS1PrivateKey,
    ParsePKCS1PrivateKey, MarshalPKCS1PublicKey, ParsePKCS1PublicKey) and below it
    encoding/asn1, as in Go 1.15.  The standard library is not in /repo; the callers are cited.
    A big.Int is an integer of Coq; pointers to integers that are nil are not modelled except
    where the library itself makes them. *)
From Coq Require Import ZArith.
From Verif Require Import Base Sha256 HashModel SignModel Edwards25519Model KeygenModel NumberTheory CancelModel.
Local Open Scope Z_scope.

(** ** math/big *)
(** big.Int FillBytes of [n] bytes, for 0 <= z < 256^n *)
Definition be_bytes (n : nat) (z : Z) : bytes := rev (le_bytes n z).
(** (z.BitLen() + 7) / 8; big.Int Bytes *)
Definition byte_len (z : Z) : nat := N.to_nat ((bit_len z + 7) / 8).
Definition int_bytes (z : Z) : bytes := if z =? 0 then [] else be_bytes (byte_len z) z.
(** the numbers r, s of the algorithm of Euclid with r = s g modulo n *)
Fixpoint euclid (fuel : nat) (r0 s0 r1 s1 : Z) : Z * Z :=
  match fuel with
  | O => (r0, s0)
  | S fuel => if r1 =? 0 then (r0, s0) else euclid fuel r1 s1 (r0 mod r1) (s0 - r0 / r1 * s1)
  end.
(** big.Int ModInverse for 0 <= g, 0 < n: nil if there is no inverse *)
Definition mod_inverse (g n : Z) : option Z :=
  let (d, x) := euclid (Z.to_nat (Z.log2 (n * n) + 2)) n 0 (g mod n) 1 in
  if d =? 1 then Some (x mod n) else None.

(** ** crypto/rsa *)
(** type PublicKey; PrivateKey has two or more primes ([rk_p], [rk_q], [rk_more]): keys with
    fewer, which only a caller of WithPK can make, are not modelled (Precompute panics) *)
Record public_key := PublicKey { pk_n : Z; pk_e : Z }.
(** type CRTValue, PrecomputedValues; [None] is nil *)
Record crt_value := CrtValue { cv_exp : Z; cv_coeff : option Z; cv_r : Z }.
Record crt_values := CrtValues { cr_dp : Z; cr_dq : Z; cr_qinv : option Z; cr_more : list crt_value }.
Record rsa_key := RsaKey { rk_pub : public_key; rk_d : Z; rk_p : Z; rk_q : Z; rk_more : list Z; rk_pre : option crt_values }.
Definition rk_n (k : rsa_key) : Z := pk_n (rk_pub k).
Definition rk_e (k : rsa_key) : Z := pk_e (rk_pub k).
Definition rk_primes (k : rsa_key) : list Z := rk_p k :: rk_q k :: rk_more k.

(** func checkPub *)
Definition check_pub (pub : public_key) : bool := (2 <=? pk_e pub) && (pk_e pub <=? 2 ^ 31 - 1).
(** PrivateKey.Validate *)
Definition validate (k : rsa_key) : bool :=
  check_pub (rk_pub k) &&
  forallb (fun p => 1 <? p) (rk_primes k) &&
  (fold_left Z.mul (rk_primes k) 1 =? rk_n k) &&
  forallb (fun p => (rk_e k * rk_d k) mod (p - 1) =? 1) (rk_primes k).
(** PrivateKey.Precompute, for primes greater than 1 *)
Fixpoint precompute_more (d r : Z) (primes : list Z) : list crt_value :=
  match primes with
  | [] => []
  | p :: primes => CrtValue (d mod (p - 1)) (mod_inverse r p) r :: precompute_more d (r * p) primes
  end.
Definition precompute (k : rsa_key) : rsa_key :=
  match rk_pre k with
  | Some _ => k
  | None =>
      RsaKey (rk_pub k) (rk_d k) (rk_p k) (rk_q k) (rk_more k)
        (Some (CrtValues (rk_d k mod (rk_p k - 1)) (rk_d k mod (rk_q k - 1)) (mod_inverse (rk_q k) (rk_p k))
                         (precompute_more (rk_d k) (rk_p k * rk_q k) (rk_more k))))
  end.

Section Generate.
(** crypto/rand.Prime: the random bytes and the number of bits; a number and the bytes that
    are left, or an error *)
Variable rand_prime : bytes -> Z -> res (Z * bytes).
(** the loop NextSetOfPrimes of GenerateMultiPrimeKey with two primes; [fuel] is the number
    of rounds, every round but the last has read random bytes *)
Fixpoint generate_rounds (fuel : nat) (rnd : bytes) (bits : Z) : res rsa_key :=
  match fuel with
  | O => Err
  | S fuel =>
      let! x := rand_prime rnd (Z.quot bits 2) in
      let '(p, rnd) := x in
      let! x := rand_prime rnd (bits - Z.of_N (bit_len p)) in
      let '(q, rnd) := x in
      if p =? q then generate_rounds fuel rnd bits
      else if negb (Z.of_N (bit_len (p * q)) =? bits) then generate_rounds fuel rnd bits
      else
        match mod_inverse 65537 ((p - 1) * (q - 1)) with
        | None => generate_rounds fuel rnd bits
        | Some d => Ok (precompute (RsaKey (PublicKey (p * q) 65537) d p q [] None))
        end
  end.
(** GenerateKey (factory.go:23).  For fewer than 64 bits it estimates the number of primes x /
    (log x - 1) / 8 below x = 2^(bits / 2) with floats and gives up when that is at most 2,
    which is when bits < 12. *)
Definition generate_key (rnd : bytes) (bits : Z) : res rsa_key :=
  if bits <? 12 then Err else generate_rounds (S (length rnd)) rnd bits.
End Generate.

(** mgf1XOR: [seed] and a counter of four bytes are hashed for every 32 bytes of [out] *)
Definition xor_bytes (a b : bytes) : bytes := map (fun p => n2b (N.lxor (b2n (fst p)) (b2n (snd p)))) (combine a b).
Fixpoint mgf1_rounds (fuel : nat) (counter : Z) (out seed : bytes) : bytes :=
  match fuel with
  | O => out
  | S fuel =>
      match out with
      | [] => []
      | _ => xor_bytes (firstn 32 out) (sha_256 (seed ++ be_bytes 4 counter)) ++ mgf1_rounds fuel (counter + 1) (skipn 32 out) seed
      end
  end.
Definition mgf1_xor (out seed : bytes) : bytes := mgf1_rounds (length out) 0 out seed.

(** EncryptOAEP with SHA-256 and the empty label (public/key.go:27-30); [rnd] is what the
    reader delivers *)
Definition encrypt_oaep (rnd : bytes) (pub : public_key) (msg : bytes) : res bytes :=
  if negb (check_pub pub) then Err
  else
    let k := byte_len (pk_n pub) in
    if Z.of_nat k - 2 * 32 - 2 <? Z.of_nat (length msg) then Err
    else if (length rnd <? 32)%nat then Err
    else
      let seed := firstn 32 rnd in
      let db := sha_256 [] ++ repeat x00 (k - 66 - length msg) ++ x01 :: msg in
      let db := mgf1_xor db seed in
      let seed := mgf1_xor seed db in
      let m := be_val (x00 :: seed ++ db) in
      Ok (be_bytes k (powmod m (pk_e pub) (pk_n pub))).

(** func decrypt: the blinding value, from what crypto/rand.Int(N) returns; no number left is
    an error of the reader *)
Fixpoint blinding (n : Z) (draws : list Z) : res (Z * Z) :=
  match draws with
  | [] => Err
  | r :: draws =>
      let r := if r =? 0 then 1 else r in
      match mod_inverse r n with Some ir => Ok (r, ir) | None => blinding n draws end
  end.
(** the Chinese remainders; a nil value is dereferenced *)
Fixpoint crt_rest (c : Z) (values : list crt_value) (primes : list Z) (m : Z) : res Z :=
  match values, primes with
  | v :: values, p :: primes =>
      match cv_coeff v with
      | None => Panic
      | Some coeff =>
          let m2 := ((powmod c (cv_exp v) p - m) * coeff) mod p in
          crt_rest c values primes (m + m2 * cv_r v)
      end
  | _, _ => Ok m
  end.
Definition crt (c : Z) (k : rsa_key) (pre : crt_values) : res Z :=
  let m := powmod c (cr_dp pre) (rk_p k) in
  let m2 := powmod c (cr_dq pre) (rk_q k) in
  let m := m - m2 in
  let m := if m <? 0 then m + rk_p k else m in
  match cr_qinv pre with
  | None => Panic
  | Some qinv => crt_rest c (cr_more pre) (rk_more k) ((m * qinv) mod rk_p k * rk_q k + m2)
  end.
Definition decrypt_int (draws : list Z) (k : rsa_key) (c : Z) : res Z :=
  let n := rk_n k in
  if n <? c then Err
  else if n =? 0 then Err
  else
    let! b := blinding n draws in
    let '(r, ir) := b in
    let c := (c * powmod r (rk_e k) n) mod n in
    let! m := match rk_pre k with None => Ok (powmod c (rk_d k) n) | Some pre => crt c k pre end in
    Ok ((m * ir) mod n).

(** DecryptOAEP (privatekey.go:36-44): the loop over [rest] *)
Record scan := Scan { sc_looking : bool; sc_index : nat; sc_invalid : bool }.
Fixpoint scan_rest (i : nat) (rest : bytes) (s : scan) : scan :=
  match rest with
  | [] => s
  | c :: rest =>
      let equals0 := beq c x00 in
      let equals1 := beq c x01 in
      let index := if sc_looking s && equals1 then i else sc_index s in
      let looking := if equals1 then false else sc_looking s in
      let invalid := if looking && negb equals0 then true else sc_invalid s in
      scan_rest (S i) rest (Scan looking index invalid)
  end.
Definition unpad (em : bytes) : res bytes :=
  let seed := firstn 32 (skipn 1 em) in
  let db := skipn 33 em in
  let seed := mgf1_xor seed db in
  let db := mgf1_xor db seed in
  let rest := skipn 32 db in
  let s := scan_rest 0 rest (Scan true 0 false) in
  if beq (hd x00 em) x00 && bseq (sha_256 []) (firstn 32 db) && negb (sc_invalid s) && negb (sc_looking s)
  then Ok (skipn (S (sc_index s)) rest) else Err.
Definition decrypt_oaep (draws : list Z) (key : rsa_key) (cipher : bytes) : res bytes :=
  if negb (check_pub (rk_pub key)) then Err
  else
    let k := byte_len (rk_n key) in
    if (k <? length cipher)%nat || (k <? 2 * 32 + 2)%nat then Err
    else
      let! m := decrypt_int draws key (be_val cipher) in
      unpad (be_bytes k m).

(** ** encoding/asn1 *)
(** makeBigInt; negative numbers, which no key has, are not modelled *)
Definition make_big_int (z : Z) : bytes :=
  match int_bytes z with
  | [] => [x00]
  | c :: _ => if (128 <=? b2n c)%N then x00 :: int_bytes z else int_bytes z
  end.
(** int64Encoder; eight bytes are enough for an int *)
Fixpoint int64_len (fuel : nat) (z : Z) : nat :=
  match fuel with
  | O => 1
  | S fuel => if (127 <? z) || (z <? -128) then S (int64_len fuel (z / 256)) else 1
  end.
Definition make_int64 (z : Z) : bytes := be_bytes (int64_len 7 z) z.
(** appendTagAndLength for the tags INTEGER and SEQUENCE, appendLength *)
Definition der_length (n : nat) : bytes :=
  if (n <? 128)%nat then [n2b (N.of_nat n)]
  else let b := int_bytes (Z.of_nat n) in n2b (128 + N.of_nat (length b)) :: b.
Definition der (tag : byte) (content : bytes) : bytes := tag :: der_length (length content) ++ content.
Definition der_int (z : Z) : bytes := der x02 (make_big_int z).

(** parseBase128Int: the number is only compared with other numbers *)
Fixpoint base128 (shifted : nat) (acc : Z) (b : bytes) : res (Z * bytes) :=
  match b with
  | [] => Err
  | c :: b =>
      if (shifted =? 5)%nat then Err
      else
        let acc := acc * 128 + b2z c mod 128 in
        if (b2n c <? 128)%N then (if 2 ^ 31 - 1 <? acc then Err else Ok (acc, b)) else base128 (S shifted) acc b
  end.
(** the length in parseTagAndLength *)
Fixpoint long_length (n : nat) (acc : Z) (b : bytes) : res (Z * bytes) :=
  match n with
  | O => Ok (acc, b)
  | S n =>
      match b with
      | [] => Err
      | c :: b =>
          if 2 ^ 23 <=? acc then Err
          else
            let acc := acc * 256 + b2z c in
            if acc =? 0 then Err else long_length n acc b
      end
  end.
Definition parse_length (b : bytes) : res (Z * bytes) :=
  match b with
  | [] => Err
  | c :: b =>
      if (b2n c <? 128)%N then Ok (b2z c, b)
      else if (b2n c =? 128)%N then Err
      else
        let! x := long_length (N.to_nat (b2n c - 128)) 0 b in
        let '(n, b) := x in
        if n <? 128 then Err else Ok (n, b)
  end.
(** parseTagAndLength: class, isCompound, tag, length and what follows *)
Record header := Header { hd_class : N; hd_compound : bool; hd_tag : Z; hd_length : Z }.
Definition parse_header (b : bytes) : res (header * bytes) :=
  match b with
  | [] => Err
  | c :: b =>
      let class := (b2n c / 64)%N in
      let compound := N.testbit (b2n c) 5 in
      let tag := b2z c mod 32 in
      let! x := if tag =? 31 then (let! y := base128 0 0 b in let '(t, b) := y in if t <? 31 then Err else Ok (t, b)) else Ok (tag, b) in
      let '(tag, b) := x in
      let! x := parse_length b in
      let '(n, b) := x in
      Ok (Header class compound tag n, b)
  end.
(** parseField of a type whose universal tag is [tag] and whose content is read by [conv];
    [None] when an optional field is left as it is *)
Definition is_header (tag : Z) (compound : bool) (h : header) : bool :=
  (hd_class h =? 0)%N && (hd_tag h =? tag) && Bool.eqb (hd_compound h) compound.
Definition parse_field {A} (tag : Z) (compound optional : bool) (conv : bytes -> res A) (b : bytes) : res (option A * bytes) :=
  match b with
  | [] => if optional then Ok (None, []) else Err
  | _ =>
      let! x := parse_header b in
      let '(h, inner) := x in
      if negb (is_header tag compound h) then (if optional then Ok (None, b) else Err)
      else if Z.of_nat (length inner) <? hd_length h then Err
      else
        let n := Z.to_nat (hd_length h) in
        let! a := conv (firstn n inner) in
        Ok (Some a, skipn n inner)
  end.
(** a field that is not optional *)
Definition parse_one {A} (tag : Z) (compound : bool) (conv : bytes -> res A) (b : bytes) : res (A * bytes) :=
  let! x := parse_field tag compound false conv b in
  match x with (Some a, b) => Ok (a, b) | (None, _) => Err end.
(** checkInteger, parseBigInt, parseInt64 *)
Definition check_integer (b : bytes) : bool :=
  match b with
  | [] => false
  | [_] => true
  | c :: c' :: _ => negb (beq c x00 && (b2n c' <? 128)%N || beq c xff && (128 <=? b2n c')%N)
  end.
Definition signed_val (b : bytes) : Z :=
  match b with
  | [] => 0
  | c :: _ => if (128 <=? b2n c)%N then be_val b - 256 ^ Z.of_nat (length b) else be_val b
  end.
Definition parse_big (b : bytes) : res Z := if check_integer b then Ok (signed_val b) else Err.
Definition parse_int64 (b : bytes) : res Z :=
  if check_integer b then if (8 <? length b)%nat then Err else Ok (signed_val b) else Err.
Definition read_big := parse_one 2 false parse_big.
Definition read_int := parse_one 2 false parse_int64.
Definition skip_big := parse_field 2 false true parse_big.
(** parseSequenceOf: all elements are looked at first, then they are read *)
Fixpoint count_elements (fuel : nat) (b : bytes) : res nat :=
  match fuel with
  | O => Err
  | S fuel =>
      match b with
      | [] => Ok O
      | _ =>
          let! x := parse_header b in
          let '(h, inner) := x in
          if negb (is_header 16 true h) then Err
          else if Z.of_nat (length inner) <? hd_length h then Err
          else let! n := count_elements fuel (skipn (Z.to_nat (hd_length h)) inner) in Ok (S n)
      end
  end.
Fixpoint read_elements {A} (conv : bytes -> res A) (n : nat) (b : bytes) : res (list A) :=
  match n with
  | O => Ok []
  | S n => let! x := parse_one 16 true conv b in let '(a, b) := x in let! l := read_elements conv n b in Ok (a :: l)
  end.
Definition parse_sequence_of {A} (conv : bytes -> res A) (b : bytes) : res (list A) :=
  let! n := count_elements (S (length b)) b in read_elements conv n b.

(** ** crypto/x509 *)
(** type pkcs1AdditionalRSAPrime: only Prime is used *)
Definition parse_additional (b : bytes) : res Z :=
  let! x := read_big b in let '(p, b) := x in
  let! x := read_big b in let '(_, b) := x in
  let! x := read_big b in let '(_, b) := x in
  Ok p.
(** type pkcs1PrivateKey; what follows the fields in the sequence is ignored *)
Definition parse_private_fields (b : bytes) : res (Z * rsa_key) :=
  let! x := read_int b in let '(version, b) := x in
  let! x := read_big b in let '(n, b) := x in
  let! x := read_int b in let '(e, b) := x in
  let! x := read_big b in let '(d, b) := x in
  let! x := read_big b in let '(p, b) := x in
  let! x := read_big b in let '(q, b) := x in
  let! x := skip_big b in let '(_, b) := x in
  let! x := skip_big b in let '(_, b) := x in
  let! x := skip_big b in let '(_, b) := x in
  let! x := parse_field 16 true true (parse_sequence_of parse_additional) b in
  let '(more, _) := x in
  Ok (version, RsaKey (PublicKey n e) d p q (match more with Some l => l | None => [] end) None).
(** ParsePKCS1PrivateKey (adapter.go:22) *)
Definition parse_private (b : bytes) : res rsa_key :=
  let! x := parse_one 16 true parse_private_fields b in
  let '((version, k), rest) := x in
  match rest with
  | _ :: _ => Err
  | [] =>
      if 1 <? version then Err
      else if negb ((0 <? rk_n k) && (0 <? rk_d k) && (0 <? rk_p k) && (0 <? rk_q k)) then Err
      else if negb (forallb (fun p => 0 <? p) (rk_more k)) then Err
      else if negb (validate k) then Err
      else Ok (precompute k)
  end.
(** MarshalPKCS1PrivateKey (adapter.go:43): an integer that is nil is left out where it is
    optional and otherwise an error, which is ignored: nothing is returned *)
Fixpoint marshal_more (primes : list Z) (values : list crt_value) : option bytes :=
  match primes, values with
  | p :: primes, v :: values =>
      match cv_coeff v, marshal_more primes values with
      | Some coeff, Some b => Some (der x30 (der_int p ++ der_int (cv_exp v) ++ der_int coeff) ++ b)
      | _, _ => None
      end
  | _, _ => Some []
  end.
Definition marshal_private (k : rsa_key) : bytes :=
  match rk_pre (precompute k) with
  | None => []
  | Some pre =>
      match marshal_more (rk_more k) (cr_more pre) with
      | None => []
      | Some more =>
          der x30 (der x02 (make_int64 (match rk_more k with [] => 0 | _ => 1 end)) ++
                   der_int (rk_n k) ++ der x02 (make_int64 (rk_e k)) ++ der_int (rk_d k) ++ der_int (rk_p k) ++ der_int (rk_q k) ++
                   der_int (cr_dp pre) ++ der_int (cr_dq pre) ++
                   match cr_qinv pre with Some z => der_int z | None => [] end ++
                   match more with [] => [] | _ => der x30 more end)
      end
  end.
(** type pkcs1PublicKey; ParsePKCS1PublicKey (public/adapter.go:26) *)
Definition parse_public_fields (b : bytes) : res public_key :=
  let! x := read_big b in let '(n, b) := x in
  let! x := read_int b in let '(e, b) := x in
  Ok (PublicKey n e).
Definition parse_public (b : bytes) : res public_key :=
  let! x := parse_one 16 true parse_public_fields b in
  let '(pub, rest) := x in
  match rest with
  | _ :: _ => Err
  | [] =>
      if negb ((0 <? pk_n pub) && (0 <? pk_e pub)) then Err
      else if 2 ^ 31 - 1 <? pk_e pub then Err
      else Ok pub
  end.
(** MarshalPKCS1PublicKey (public/adapter.go:46) *)
Definition marshal_public (pub : public_key) : bytes := der x30 (der_int (pk_n pub) ++ der x02 (make_int64 (pk_e pub))).

(** ** the library as the keys of CancelModel use it: [rand_prime] is crypto/rand.Prime,
    [draws] is what crypto/rand.Int returns in a call of Decrypt *)
Definition go_rsa (rand_prime : bytes -> Z -> res (Z * bytes)) (draws : rsa_key -> bytes -> list Z) : rsa :=
  {| rsa_sk := rsa_key; rsa_pk := public_key; rsa_public := rk_pub;
     rsa_generate := generate_key rand_prime;
     rsa_encrypt := encrypt_oaep;
     rsa_decrypt := fun k c => decrypt_oaep (draws k c) k c;
     x509_private := marshal_private; x509_to_private := parse_private;
     x509_public := marshal_public; x509_to_public := parse_public |}.
