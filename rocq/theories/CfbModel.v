(** Model of libs/cryptography/encryption: AES in CFB mode, base64 text.

    [H256] is the hash of the password (sdk.go:11-13, builder.go:31-33) and [AES key block]
    the block cipher of crypto/aes; both are arbitrary functions here.  aes.NewCipher
    (encryption.go:26, 50) fails only for a key that is not 16, 24 or 32 bytes long; the
    key is a 32-byte digest. *)
From Verif Require Import Base.

Definition bxor (a b : byte) : byte := n2b (N.lxor (b2n a) (b2n b)).

Section Cfb.
  Variable H256 : bytes -> bytes.
  Variable AES : bytes -> bytes -> bytes.

  (** crypto/cipher cfb.XORKeyStream, byte by byte: [ks] is the unused rest of the
      key stream block, [next] the ciphertext bytes collected for the next block
      (the IV at the start).  When the key stream is used up the next block is
      encrypted.  (For a block function returning no bytes at all the key byte
      is taken to be 0; AES returns 16 bytes.) *)
  Fixpoint cfb (dec : bool) (key : bytes) (ks next : bytes) (m : bytes) : bytes :=
    match m with
    | [] => []
    | p :: m =>
        let '(ks, next) := match ks with [] => (AES key next, []) | _ => (ks, next) end in
        let c := bxor p (hd x00 ks) in
        c :: cfb dec key (tl ks) (next ++ [if dec then p else c]) m
    end.

  (** encryption.go:25-41 Encrypt; [iv] are the 16 random bytes of lines 32-35 *)
  Definition encrypt (password iv message : bytes) : bytes :=
    b64_encode (iv ++ cfb false (H256 password) [] iv message).

  (** encryption.go:44-69 Decrypt *)
  Definition decrypt (password text : bytes) : res bytes :=
    let! ct := b64_decode text in
    if Nat.ltb (length ct) 16 then Err
    else Ok (cfb true (H256 password) [] (firstn 16 ct) (skipn 16 ct)).
End Cfb.
