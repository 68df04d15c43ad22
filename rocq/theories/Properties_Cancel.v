(** Properties of cancels and of encryption keys (C73 - C75). *)
From Verif Require Import Base BaseFacts HashModel HashSpec EntitiesModel SignModel SignSpec SignProofs JsonModel MemSpec TransferModel ToyCurve IdentityModel IdentitySpec
  CancelModel CancelSpec CancelProofs.

(** ** C73: what is retrieved from the cancel store is what was saved *)
(** A hash gives exactly the cancel last saved with it. *)
Theorem C73_history : forall (C : Curve) (ts : list (tcancel C)) h, Forall good_tcancel ts ->
  cancel_retrieve h (part_runs e_tcancel tn_hash (map SavePart ts) (fun _ => None)) =
  match find (fun t => bseq (tn_hash t) h) (rev ts) with Some t => Ok t | None => Err end.
Proof. exact @cancel_saved. Qed.
Print Assumptions C73_history.
(** Save succeeds on any disk and changes what is read for this hash only. *)
Theorem C73_save : forall (C : Curve) (t : tcancel C) d, good_tcancel t ->
  exists d', cancel_save t d = Ok d' /\ forall h, cancel_retrieve h d' = if bseq (tn_hash t) h then Ok t else cancel_retrieve h d.
Proof. exact @cancel_save_one. Qed.
Print Assumptions C73_save.
(** A cancel can be built exactly from a hash, an expense, a lock and at least one signature. *)
Theorem C73_built : forall (C : Curve) now h e l sigs created (t : tcancel C), tcancel_now now h e l sigs created = Ok t <->
  exists h' e' l' s ss, h = Some h' /\ e = Some e' /\ l = Some l' /\ sigs = Some (s :: ss) /\
    t = TCancel (Immutable h' (match created with Some c => c | None => now end)) e' l' (s :: ss).
Proof. exact @tcancel_now_iff. Qed.
Print Assumptions C73_built.
(** Whatever is on the disk, reading does not panic, ... *)
Theorem C73_never_crashes : forall (C : Curve) h d, cancel_retrieve (C := C) h d <> Panic.
Proof. exact @cancel_retrieve_no_panic. Qed.
Print Assumptions C73_never_crashes.
(** ... and what it returns is a complete cancel. *)
Theorem C73_complete : forall (C : Curve) h d (t : tcancel C), cancel_retrieve h d = Ok t ->
  tn_sigs t <> [] /\ length (tn_hash t) = 64 /\ length (tn_expense t) = 64 /\ length (tn_lock t) = 64.
Proof. exact @cancel_retrieved. Qed.
Print Assumptions C73_complete.
Definition toy_ring : ringsig toy := @RingSig toy [mk 5; mk 7] [mk 11; mk 13] (mk 17).
Definition cancel_a : tcancel toy := TCancel (Immutable (repeat x01 64) 4) (repeat x02 64) (repeat x03 64) [toy_ring].
Definition cancel_b : tcancel toy := TCancel (Immutable (repeat x01 64) 5) (repeat x04 64) (repeat x03 64) [toy_ring; toy_ring].
Lemma toy_ring_readable : ring_of_string toy (ring_string toy toy_ring) = Ok toy_ring.
Proof. apply (ring_of_ring_string _ _ _ _ toy_laws); [exact I|repeat constructor]. Qed.
Example C73_case : Forall good_tcancel [cancel_a; cancel_b] /\
  find (fun t => bseq (tn_hash t) (repeat x01 64)) (rev [cancel_a; cancel_b]) = Some cancel_b /\
  find (fun t => bseq (tn_hash t) (repeat x02 64)) (rev [cancel_a; cancel_b]) = None /\
  (exists t, tcancel_now 9 (Some (repeat x01 64)) (Some (repeat x02 64)) (Some (repeat x03 64)) (Some [toy_ring]) None = Ok t) /\
  tcancel_now (C := toy) 9 (Some (repeat x01 64)) (Some (repeat x02 64)) (Some (repeat x03 64)) (Some []) None = Err.
Proof.
  pose proof toy_ring_readable as R. split.
  - constructor; [|constructor; [|constructor]]; split; [reflexivity| |reflexivity|]; (split; [reflexivity|]); (split; [reflexivity|]);
      (split; [discriminate|]); (split; [repeat constructor; exact R|]); split; vm_compute; congruence.
  - split; [reflexivity|]. split; [reflexivity|]. split; [eexists|]; reflexivity.
Qed.

(** ** C74: encryption keys *)
(** A key the factory makes decrypts what is encrypted for its public key, whatever the
    32 random bytes; [good] and [fits] are the keys and the messages of the contract of
    crypto/rsa and crypto/x509, which C103 proves of a model of them. *)
Theorem C74_decrypts : forall R good fits, rsa_laws R good fits -> forall rnd bits k, factory_create R rnd bits = Ok k ->
  pv_public R k = rsa_public R (pv_key R k) /\ good (pv_key R k) /\
  forall r m, fits (pv_key R k) m -> 32 <= length r -> exists c, key_encrypt R r (pv_public R k) m = Ok c /\ key_decrypt R k c = Ok m.
Proof. exact key_roundtrip. Qed.
Print Assumptions C74_decrypts.
(** Private and public keys survive their texts and their bytes. *)
Theorem C74_text : forall R good fits, rsa_laws R good fits -> forall k, good (pv_key R k) -> pv_public R k = rsa_public R (pv_key R k) ->
  below_2GB (private_to_bytes R k) -> below_2GB (public_to_bytes R (pv_public R k)) ->
  private_from_encoded R (private_to_encoded R k) = Ok k /\ private_from_bytes R (private_to_bytes R k) = Ok k /\
  public_from_encoded R (public_to_encoded R (pv_public R k)) = Ok (pv_public R k) /\
  public_from_bytes R (public_to_bytes R (pv_public R k)) = Ok (pv_public R k).
Proof. exact private_text. Qed.
Print Assumptions C74_text.
(** What is read is always a pair that belongs together, whatever the bytes. *)
Theorem C74_pair : forall R b k, private_from_bytes R b = Ok k \/ private_from_encoded R b = Ok k -> pv_public R k = rsa_public R (pv_key R k).
Proof. exact private_pair. Qed.
Print Assumptions C74_pair.
(** The hash of a public key determines it, up to a coincidence of hashes that is given. *)
Theorem C74_hash : forall R good fits, rsa_laws R good fits -> forall k1 k2, good k1 -> good k2 ->
  below_2GB (public_to_bytes R (rsa_public R k1)) -> below_2GB (public_to_bytes R (rsa_public R k2)) ->
  public_to_hash R (rsa_public R k1) = public_to_hash R (rsa_public R k2) ->
  rsa_public R k1 = rsa_public R k2 \/ hash_coincidence (x509_public R (rsa_public R k1)) (x509_public R (rsa_public R k2)).
Proof. exact public_hash_commits. Qed.
Print Assumptions C74_hash.
(** toy keys: a byte; a message has at most four bytes, the cipher begins with the key *)
Definition toy_rsa : rsa := {|
  rsa_sk := byte; rsa_pk := byte; rsa_public := fun k => n2b ((b2n k + 1) mod 256);
  rsa_generate := fun rnd bits => match rnd with k :: _ => Ok k | [] => Err end;
  rsa_encrypt := fun rnd p m => if length m <=? 4 then Ok (p :: m) else Err;
  rsa_decrypt := fun k c => match c with p :: m => if beq p (n2b ((b2n k + 1) mod 256)) then Ok m else Err | [] => Err end;
  x509_private := fun k => [k; x00]; x509_to_private := fun b => match b with [k; _] => Ok k | _ => Err end;
  x509_public := fun p => [p]; x509_to_public := fun b => match b with [p] => Ok p | _ => Err end |}.
Lemma toy_rsa_laws : rsa_laws toy_rsa (fun _ => True) (fun _ m => length m <= 4).
Proof.
  constructor; try (intros; reflexivity || exact I). intros k rnd m _ F _. exists (rsa_public toy_rsa k :: m).
  cbn [rsa_encrypt rsa_decrypt rsa_public toy_rsa]. apply Nat.leb_le in F. rewrite F. split; [reflexivity|]. rewrite beq_refl. reflexivity.
Qed.
Example C74_case : rsa_laws toy_rsa (fun _ => True) (fun _ m => length m <= 4) /\
  (exists k, factory_create toy_rsa [x05] 2048 = Ok k /\ pv_public toy_rsa k = x06) /\
  key_decrypt toy_rsa (PrivateKey toy_rsa x05 x06) [x06; x41] = Ok [x41] /\
  key_decrypt toy_rsa (PrivateKey toy_rsa x07 x08) [x06; x41] = Err.
Proof. split; [exact toy_rsa_laws|]. split; [eexists; split; reflexivity|]. split; reflexivity. Qed.

(** ** C75: one adapter may be used by several goroutines *)
(** It may not: for any two keys there is a schedule in which a call returns the private
    key of the other call with its own public key, ... *)
Theorem C75_refuted : forall R pk k1 k2 cs,
  nth_error (snd (calls_run R [0; 0; 1; 0] (pk, Parsed R k1 :: Parsed R k2 :: cs))) 0 =
  Some (Returned R k1 (Ok (PrivateKey R k2 (rsa_public R k1)))).
Proof. exact call_mixed. Qed.
Print Assumptions C75_refuted.
(** ... and one in which it returns the key of the other call. *)
Theorem C75_refuted_other : forall R pk k1 k2 cs,
  nth_error (snd (calls_run R [0; 1; 0; 0] (pk, Parsed R k1 :: Parsed R k2 :: cs))) 0 =
  Some (Returned R k1 (Ok (PrivateKey R k2 (rsa_public R k2)))).
Proof. exact call_other. Qed.
Print Assumptions C75_refuted_other.
(** A call that no other interrupts between writing and reading returns its own key, ... *)
Theorem C75_uninterrupted_partial : forall R before after n s k, nth_error (snd (calls_run R before s)) n = Some (Parsed R k) ->
  nth_error (snd (calls_run R (before ++ [n; n; n] ++ after) s)) n = Some (Returned R k (Ok (PrivateKey R k (rsa_public R k)))).
Proof. exact call_alone. Qed.
Print Assumptions C75_uninterrupted_partial.
(** ... and in every schedule a call that returns, returns keys some call has parsed. *)
Theorem C75_sound_partial : forall R ks sch n k r,
  nth_error (snd (calls_run R sch (None, map (Parsed R) ks))) n = Some (Returned R k r) ->
  exists k1 k2, In k1 ks /\ In k2 ks /\ r = Ok (PrivateKey R k1 (rsa_public R k2)).
Proof. exact calls_sound. Qed.
Print Assumptions C75_sound_partial.
Example C75_case :
  nth_error (snd (calls_run toy_rsa [1; 0] (None, map (Parsed toy_rsa) [x05; x07]))) 0 = Some (Written toy_rsa x05) /\
  nth_error (snd (calls_run toy_rsa [1] (None, map (Parsed toy_rsa) [x05; x07]))) 0 = Some (Parsed toy_rsa x05) /\
  snd (calls_run toy_rsa [0; 0; 1; 0; 1; 1] (None, map (Parsed toy_rsa) [x05; x07])) =
    [Returned toy_rsa x05 (Ok (PrivateKey toy_rsa x07 x06)); Returned toy_rsa x07 (Ok (PrivateKey toy_rsa x07 x08))].
Proof. split; [|split]; reflexivity. Qed.
