(** What can be done with keys and signatures when everything goes in and comes out
    as text, as it does between processes. *)
From Verif Require Import Base HashModel SignModel PiastresModel.

Section Texts.
Variable C : Curve.

(** the text of the public key of a private key *)
Definition public_text (key : bytes) : res bytes :=
  rmap (fun x => pstr C (public_key C x)) (scalar_of_string C key).

(** Sign; [rnd] is the random message of Verify *)
Definition sign_text (rnd : Z) (key msg : bytes) : res bytes :=
  let! x := scalar_of_string C key in rmap (sig_string C) (sign C rnd x msg).

(** the text of the point r of a signature *)
Definition nonce_text (x : Sc C) (m : bytes) : bytes := pstr C (pmul C (gen_k C x m) (base C)).

(** a signature that is read: its text, and its public key for a message *)
Definition read_text (rnd : Z) (sig msg : bytes) : res (bytes * bytes) :=
  rmap (fun g => (sig_string C g, pstr C (sig_public_key C g msg))) (sig_of_string C rnd sig).

(** RingSign *)
Definition ring_sign_text (key msg : bytes) (ring : list bytes) : res bytes :=
  let! x := scalar_of_string C key in
  let! ring := rmapM (point_of_string C) ring in
  rmap (ring_string C) (ring_sign C x msg ring).

(** a ring signature that is read: its text, and the answer of Verify *)
Definition ring_read_text (sig msg : bytes) : res (bytes * bool) :=
  let! g := ring_of_string C sig in
  rmap (fun ok => (ring_string C g, ok)) (ring_verify C g msg).

(** the comparison with hashed keys *)
Definition ring_keys_text (sig msg : bytes) (keys : list hash) : res bool :=
  let! g := ring_of_string C sig in to_verification C g msg keys.

(** opening a lock *)
Definition unlock_text (l : lock) (sig : bytes) : res unit :=
  let! g := ring_of_string C sig in unlock l g.
End Texts.
