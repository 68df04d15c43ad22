(** Model of domain/transfers/piastres/cancels and of libs/cryptography/pk/encryption. *)
From Verif Require Import Base HashModel EntitiesModel SignModel JsonModel TimeModel MemJsonModel TransferModel IdentityModel.

(** ** domain/transfers/piastres/cancels *)
Section WithCurve.
Context {C : Curve}.
(** cancel.go:12-17 *)
Record tcancel := TCancel { tn_im : immutable; tn_expense : hash; tn_lock : hash; tn_sigs : list (ringsig C) }.
Definition tn_hash (t : tcancel) : hash := im_hash (tn_im t).
(** builder.go:72-100 Now; [None] for what was not given, [now] is the reading of the
    immutable builder (line 93) *)
Definition tcancel_now (now : Z) (h expense lock : option hash) (sigs : option (list (ringsig C))) (created : option Z) : res tcancel :=
  match h, expense, lock, sigs with
  | Some h, Some e, Some l, Some (s :: ss) => let! im := immutable_now now (Some h) created in Ok (TCancel im e l (s :: ss))
  | _, _, _, _ => Err
  end.
(** json_cancel.go:7-46 *)
Definition e_tcancel (t : tcancel) : res json :=
  jstruct [("hash", jhash (im_hash (tn_im t))); ("expense", jhash (tn_expense t)); ("lock", jhash (tn_lock t));
           ("signatures", jlist jsig (tn_sigs t)); ("created_on", jtime (im_created (tn_im t)))]%string.
(** cancel.go:19-55 createCancelFromJSON *)
Definition d_tcancel (js : list json) : res tcancel :=
  let! m := dstruct js in
  let! h := field "hash" dhash m in
  let! e := field "expense" dhash m in
  let! l := field "lock" dhash m in
  let! sigs := field "signatures" dsigs m in
  let! created := field "created_on" dtime m in
  tcancel_now 0 (Some h) (Some e) (Some l) (Some sigs) (Some created).
(** service.go:22-29 Save, repository.go:23-30 Retrieve; adapter.go:14-27 *)
Definition cancel_save : tcancel -> idisk -> res idisk := part_save e_tcancel tn_hash.
Definition cancel_retrieve : hash -> idisk -> res tcancel := part_retrieve d_tcancel.
End WithCurve.
Arguments tcancel C : clear implicits.

(** ** libs/cryptography/pk/encryption *)
(** what crypto/rsa and crypto/x509 offer; the randomness of EncryptOAEP is its first
    argument, the hash function is SHA-256 and the label is empty always *)
Record rsa := Rsa {
  rsa_sk : Type; rsa_pk : Type;
  rsa_public : rsa_sk -> rsa_pk;                      (* the field PublicKey *)
  rsa_generate : bytes -> Z -> res rsa_sk;            (* randomness, bits *)
  rsa_encrypt : bytes -> rsa_pk -> bytes -> res bytes;
  rsa_decrypt : rsa_sk -> bytes -> res bytes;
  x509_private : rsa_sk -> bytes; x509_to_private : bytes -> res rsa_sk;
  x509_public : rsa_pk -> bytes; x509_to_public : bytes -> res rsa_pk }.
Section WithRsa.
Variable R : rsa.
(** privatekey.go:11-14 *)
Record private_key := PrivateKey { pv_key : rsa_sk R; pv_public : rsa_pk R }.
(** builder.go:35-46 Now, public/builder.go:32-38 Now: [pk] is the field of the builder *)
Definition private_now (pk : option (rsa_sk R)) : res private_key :=
  match pk with Some k => Ok (PrivateKey k (rsa_public R k)) | None => Err end.
(** factory.go:22-29 Create *)
Definition factory_create (rnd : bytes) (bits : Z) : res private_key :=
  let! k := rsa_generate R rnd bits in private_now (Some k).
(** privatekey.go:36-44 Decrypt, public/key.go:27-30 Encrypt *)
Definition key_decrypt (k : private_key) (cipher : bytes) : res bytes := rsa_decrypt R (pv_key k) cipher.
Definition key_encrypt (rnd : bytes) (p : rsa_pk R) (msg : bytes) : res bytes := rsa_encrypt R rnd p msg.
(** adapter.go:21-50.  FromBytes gives the key to the builder of the adapter without
    Create(): the builder is shared by all calls.  For a call that is not overlapped by
    another the result is this: *)
Definition private_from_bytes (b : bytes) : res private_key :=
  let! k := x509_to_private R b in private_now (Some k).
Definition private_from_encoded (s : bytes) : res private_key :=
  let! b := b64_decode s in private_from_bytes b.
Definition private_to_bytes (k : private_key) : bytes := x509_private R (pv_key k).
Definition private_to_encoded (k : private_key) : bytes := b64_encode (private_to_bytes k).
(** public/adapter.go:25-60 *)
Definition public_from_bytes (b : bytes) : res (rsa_pk R) := x509_to_public R b.
Definition public_from_encoded (s : bytes) : res (rsa_pk R) := let! b := b64_decode s in public_from_bytes b.
Definition public_to_bytes (p : rsa_pk R) : bytes := x509_public R p.
Definition public_to_encoded (p : rsa_pk R) : bytes := b64_encode (public_to_bytes p).
Definition public_to_hash (p : rsa_pk R) : res hash := FromBytes (public_to_bytes p).

(** adapter.go:21-28 by several goroutines with one adapter.  After parsing, a call does
    three steps: it writes its key to the field of the builder (builder.go:30), it reads
    the field for the public key (builder.go:40) and again for the private key (line 45).
    Simplification: the memory is sequentially consistent. *)
Inductive call :=
  | Parsed (k : rsa_sk R)
  | Written (k : rsa_sk R)
  | HasPublic (k : rsa_sk R) (p : rsa_pk R)
  | Returned (k : rsa_sk R) (r : res private_key). (* [k] is the key that was parsed *)
Definition call_step (pk : option (rsa_sk R)) (c : call) : option (rsa_sk R) * call :=
  match c with
  | Parsed k => (Some k, Written k)
  | Written k => match pk with Some k' => (pk, HasPublic k (rsa_public R k')) | None => (pk, Returned k Err) end
  | HasPublic k p => match pk with Some k' => (pk, Returned k (Ok (PrivateKey k' p))) | None => (pk, Returned k Panic) end
  | Returned _ _ => (pk, c)
  end.
Fixpoint step_at (pk : option (rsa_sk R)) (n : nat) (cs : list call) : option (rsa_sk R) * list call :=
  match cs, n with
  | [], _ => (pk, [])
  | c :: cs, O => let (pk, c) := call_step pk c in (pk, c :: cs)
  | c :: cs, S n => let (pk, cs) := step_at pk n cs in (pk, c :: cs)
  end.
(** a schedule is the list of the calls in the order in which they do a step *)
Fixpoint calls_run (schedule : list nat) (s : option (rsa_sk R) * list call) : option (rsa_sk R) * list call :=
  match schedule with
  | [] => s
  | n :: schedule => calls_run schedule (step_at (fst s) n (snd s))
  end.
End WithRsa.
