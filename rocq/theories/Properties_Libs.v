(** C09 - C11, C28, C29, C92: entities, encryption and file stores. *)
From Coq Require Import Lia ZifyBool.
From Verif Require Import Base BaseFacts Sha512 HashModel HashProofs EntitiesModel
  CfbModel CfbProofs FileModel FileSpec FileProofs FilePathSpec FileMore.

(** ** C09 *)

(** The immutable builder fails exactly without a hash; otherwise it carries the
    given hash and time, or the clock. *)
Lemma immutable_spec : forall now h created,
  match immutable_now now h created with
  | Ok e => h = Some (im_hash e) /\
            ((created = Some (im_created e)) \/ (created = None /\ im_created e = now))
  | Err => h = None
  | Panic => False
  end.
Proof. intros now [h|] [c|]; cbn; auto. Qed.
Theorem C09_immutable : forall now h created,
  match immutable_now now h created with
  | Ok e => h = Some (im_hash e) /\
            ((created = Some (im_created e)) \/ (created = None /\ im_created e = now))
  | Err => h = None
  | Panic => False
  end.
Proof. exact immutable_spec. Qed.
Print Assumptions C09_immutable.

Lemma mutable_spec : forall now1 now2 h created updated,
  let c := match created with Some c => c | None => now1 end in
  let u := match updated with Some u => u | None => now2 end in
  match mutable_now now1 now2 h created updated with
  | Ok e => h = Some (mu_hash e) /\ mu_created e = c /\ mu_updated e = u /\ (c <= u)%Z
  | Err => h = None \/ (u < c)%Z
  | Panic => False
  end.
Proof.
  intros now1 now2 [h|] created updated c u; [|cbn; auto].
  unfold mutable_now. fold c u. cbn zeta. destruct (Z.gtb_spec c u).
  - right. lia.
  - cbn. repeat split. lia.
Qed.
(** Whatever the clock says, a mutable entity is never updated before it was
    created, and it carries what was given. *)
Theorem C09_mutable : forall now1 now2 h created updated,
  let c := match created with Some c => c | None => now1 end in
  let u := match updated with Some u => u | None => now2 end in
  match mutable_now now1 now2 h created updated with
  | Ok e => h = Some (mu_hash e) /\ mu_created e = c /\ mu_updated e = u /\ (c <= u)%Z
  | Err => h = None \/ (u < c)%Z
  | Panic => False
  end.
Proof. exact mutable_spec. Qed.
Print Assumptions C09_mutable.
Example C09_case :
  mutable_now 5 3 (Some (from_bytes (s2b "x"))) None None = Err /\
  mutable_now 3 5 (Some (from_bytes (s2b "x"))) None (Some 4%Z) =
    Ok (Mutable (from_bytes (s2b "x")) 3 4).
Proof. split; reflexivity. Qed.

(** ** C10 *)
Theorem C10_roundtrip : forall H256 AES pw iv m, length iv = 16 ->
  decrypt H256 AES pw (encrypt H256 AES pw iv m) = Ok m.
Proof. exact decrypt_encrypt. Qed.
Print Assumptions C10_roundtrip.

Theorem C10_text : forall H256 AES pw iv m, length iv = 16 ->
  exists ct, b64_decode (encrypt H256 AES pw iv m) = Ok ct /\ length ct = 16 + length m /\ firstn 16 ct = iv.
Proof. exact encrypt_text. Qed.
Print Assumptions C10_text.

(** a toy cipher: a message of 20 bytes, one and a quarter blocks *)
Example C10_case :
  let iv := repeat x07 16 in
  let aes := fun k x => map (fun b => bxor b (hd x00 k)) x in
  let m := s2b "twenty bytes of text" in
  decrypt sha512 aes (s2b "pw") (encrypt sha512 aes (s2b "pw") iv m) = Ok m /\
  encrypt sha512 aes (s2b "pw") iv m <> m.
Proof. split; [apply C10_roundtrip; reflexivity|vm_compute; discriminate]. Qed.

(** ** C11 *)

(** Whether Decrypt succeeds does not depend on the password at all: it succeeds
    exactly on the base64 texts of at least 16 bytes. *)
Theorem C11_refuted_never_rejects : forall H256 AES pw text,
  (exists m, decrypt H256 AES pw text = Ok m) <->
  (exists ct, b64_decode text = Ok ct /\ 16 <= length ct).
Proof. exact decrypt_never_rejects. Qed.
Print Assumptions C11_refuted_never_rejects.

(** In particular a text made with one password decrypts under every other. *)
Lemma wrong_password_accepted : forall H256 AES pw pw' iv m, length iv = 16 ->
  exists m', decrypt H256 AES pw' (encrypt H256 AES pw iv m) = Ok m'.
Proof.
  intros H256 AES pw pw' iv m Hiv. apply decrypt_never_rejects.
  destruct (encrypt_text H256 AES pw iv m Hiv) as (ct & E & L & _). exists ct. split; [exact E|lia].
Qed.
Theorem C11_refuted_wrong_password : forall H256 AES pw pw' iv m, length iv = 16 ->
  exists m', decrypt H256 AES pw' (encrypt H256 AES pw iv m) = Ok m'.
Proof. exact wrong_password_accepted. Qed.
Print Assumptions C11_refuted_wrong_password.

(** Tampering without the password changes the last byte of the message at will. *)
Theorem C11_refuted_malleable : forall H256 AES pw iv m b d, length iv = 16 ->
  decrypt H256 AES pw (flip_last d (encrypt H256 AES pw iv (m ++ [b]))) = Ok (m ++ [bxor b d]).
Proof. exact decrypt_malleable. Qed.
Print Assumptions C11_refuted_malleable.
Example C11_case :
  let iv := repeat x07 16 in
  let aes := fun k x => map (fun b => bxor b (hd x00 k)) x in
  decrypt sha512 aes (s2b "pw") (flip_last x01 (encrypt sha512 aes (s2b "pw") iv (s2b "pay 10"))) = Ok (s2b "pay 11").
Proof. apply (C11_refuted_malleable sha512 _ _ _ (s2b "pay 1") x30 x01). reflexivity. Qed.

(** What holds: a text that is not base64 or is too short is an error, never a panic. *)
Lemma bad_text_rejected : forall H256 AES pw text,
  decrypt H256 AES pw text <> Panic /\
  ((forall ct, b64_decode text = Ok ct -> length ct < 16) -> decrypt H256 AES pw text = Err).
Proof.
  intros H256 AES pw text. split; [apply decrypt_no_panic|]. intro H.
  pose proof (decrypt_no_panic H256 AES pw text).
  destruct (decrypt H256 AES pw text) as [m| |] eqn:E; [|reflexivity|contradiction].
  assert (exists m, decrypt H256 AES pw text = Ok m) as X by eauto.
  apply decrypt_never_rejects in X as (ct & X1 & X2). apply H in X1. lia.
Qed.
Theorem C11_bad_text_partial : forall H256 AES pw text,
  decrypt H256 AES pw text <> Panic /\
  ((forall ct, b64_decode text = Ok ct -> length ct < 16) -> decrypt H256 AES pw text = Err).
Proof. exact bad_text_rejected. Qed.
Print Assumptions C11_bad_text_partial.

(** ** C28 *)

(** Disk store: after any sequence of calls on any consistent disk, Retrieve
    returns what the map of the observed successful saves and deletes holds. *)
Theorem C28_disk_is_map : forall base d os, consistent_fs d ->
  let '(d', evs) := run_ops base d os in
  consistent_fs d' /\
  forall rel, retrieve base d' rel =
    as_result (map_after patheq (fpath base) (content_at d) evs (fpath base rel)).
Proof. exact disk_refines_map. Qed.
Print Assumptions C28_disk_is_map.

(** DeleteAll is exactly its deletions, and succeeds iff all of them do. *)
Theorem C28_delete_all : forall base rels d,
  delete_all base d rels =
  (fst (run_deletes base d rels), forallb ev_ok (snd (run_deletes base d rels))).
Proof. exact delete_all_events. Qed.
Print Assumptions C28_delete_all.

(** Save fails exactly when a parent of the path is a file or the path is a
    directory, *)
Theorem C28_save_succeeds : forall base d rel c, consistent_fs d ->
  (snd (save base d rel c) = true <->
   (forall a f, In a (ancestors (fpath base rel)) -> fget d a <> Some (File f)) /\
   fget d (fpath base rel) <> Some Dir).
Proof. exact save_succeeds. Qed.
Print Assumptions C28_save_succeeds.

(** and then the content is there and all other paths are untouched. *)
Theorem C28_save_then_retrieve : forall base d rel c d', consistent_fs d ->
  save base d rel c = (d', true) ->
  retrieve base d' rel = Ok c /\
  forall rel', fpath base rel' <> fpath base rel -> retrieve base d' rel' = retrieve base d rel'.
Proof. exact save_then_retrieve. Qed.
Print Assumptions C28_save_then_retrieve.

(** Deleting what can be retrieved succeeds and removes only that; deleting what
    does not exist fails and changes nothing. *)
Theorem C28_delete_present : forall base d rel c, consistent_fs d -> retrieve base d rel = Ok c ->
  exists d', delete base d rel = (d', true) /\ retrieve base d' rel = Err /\
  forall rel', fpath base rel' <> fpath base rel -> retrieve base d' rel' = retrieve base d rel'.
Proof. exact delete_present. Qed.
Print Assumptions C28_delete_present.

Theorem C28_delete_missing : forall base d rel, consistent_fs d ->
  fget d (fpath base rel) = None -> delete base d rel = (d, false).
Proof. exact delete_missing. Qed.
Print Assumptions C28_delete_missing.

(** One-component names, in particular the text of hashes, never alias. *)
Theorem C28_flat_names_distinct : forall base a b,
  flat_name a -> flat_name b -> fpath base a = fpath base b -> a = b.
Proof. exact fpath_flat_inj. Qed.
Print Assumptions C28_flat_names_distinct.

Theorem C28_hash_names_flat : forall h, length h = 64 -> flat_name (hash_string h).
Proof. exact hash_string_flat. Qed.
Print Assumptions C28_hash_names_flat.

(** The store for tests. *)
Theorem C28_test_store_is_map : forall os d,
  let '(d', evs) := t_run_ops d os in
  forall rel, t_retrieve d' rel =
    as_result (map_after bseq (fun r => r) (fun r => aget bseq r d) evs rel).
Proof. exact test_store_refines_map. Qed.
Print Assumptions C28_test_store_is_map.

Theorem C28_test_delete_all : forall rels d,
  t_delete_all d rels =
  (fst (t_run_deletes d rels), forallb ev_ok (snd (t_run_deletes d rels))).
Proof. exact t_delete_all_events. Qed.
Print Assumptions C28_test_delete_all.

(** With one-component names (all the stores of hashes) both stores give the same
    answers to every history; in particular every Save succeeds. *)
Theorem C28_flat_names_total : forall base os,
  Forall (fun o => Forall flat_name (op_names o)) os ->
  snd (run_ops base [] os) = snd (t_run_ops [] os) /\
  forall n, flat_name n -> retrieve base (fst (run_ops base [] os)) n = t_retrieve (fst (t_run_ops [] os)) n.
Proof. exact flat_same_as_test_store. Qed.
Print Assumptions C28_flat_names_total.

(** Non-flat names: "a" and "b/../a" are the same path, and once "a" is a file
    nothing can be saved below it. *)
Example C28_case :
  let base := s2b "/store" in
  let '(d, evs) := run_ops base []
    [OSave (s2b "a") (s2b "1"); OSave (s2b "b/../a") (s2b "2"); OSave (s2b "a/x") (s2b "3");
     OSave (s2b "c/d") (s2b "4"); ODelete (s2b "c"); ODeleteAll [s2b "c/d"; s2b "c"; s2b "nope"]] in
  consistent_fs [] /\
  evs = [EvSave (s2b "a") (s2b "1") true; EvSave (s2b "b/../a") (s2b "2") true;
         EvSave (s2b "a/x") (s2b "3") false; EvSave (s2b "c/d") (s2b "4") true;
         EvDelete (s2b "c") false;
         EvDelete (s2b "c/d") true; EvDelete (s2b "c") true; EvDelete (s2b "nope") false] /\
  retrieve base d (s2b "a") = Ok (s2b "2") /\ retrieve base d (s2b "c/d") = Err.
Proof. vm_compute. repeat split. intros [|c p] n H; [constructor|discriminate]. Qed.

(** ** C29 *)
Theorem C29_save_then_retrieve : forall H256 AES pw base d iv rel c d', consistent_fs d -> length iv = 16 ->
  enc_save H256 AES pw base d iv rel c = (d', true) ->
  consistent_fs d' /\
  enc_retrieve H256 AES pw base d' rel = Ok c /\
  forall rel', fpath base rel' <> fpath base rel ->
    enc_retrieve H256 AES pw base d' rel' = enc_retrieve H256 AES pw base d rel'.
Proof. exact enc_save_then_retrieve. Qed.
Print Assumptions C29_save_then_retrieve.

Theorem C29_delete : forall H256 AES pw base d rel c, consistent_fs d ->
  enc_retrieve H256 AES pw base d rel = Ok c ->
  exists d', enc_delete base d rel = (d', true) /\ enc_retrieve H256 AES pw base d' rel = Err.
Proof. exact enc_delete_removes. Qed.
Print Assumptions C29_delete.

Theorem C29_delete_all : forall base rels d,
  enc_delete_all base d rels = (fst (run_deletes base d rels), forallb ev_ok (snd (run_deletes base d rels))).
Proof. exact delete_all_events. Qed.
Print Assumptions C29_delete_all.

(** Every history from the empty disk. *)
Theorem C29_encrypted_is_map : forall H256 AES pw base os, Forall (fun o => length (snd o) = 16) os ->
  let '(d', evs) := enc_run_ops H256 AES pw base [] os in
  forall rel, enc_retrieve H256 AES pw base d' rel =
    as_result (map_after patheq (fpath base) (fun _ => None) evs (fpath base rel)).
Proof. exact enc_refines_map_empty. Qed.
Print Assumptions C29_encrypted_is_map.
Example C29_case :
  let aes := fun k x => map (fun b => bxor b (hd x00 k)) x in
  let '(d, evs) := enc_run_ops sha512 aes (s2b "pw") (s2b "/s") []
     [(OSave (s2b "a") (s2b "secret"), repeat x01 16); (OSave (s2b "b") (s2b "other"), repeat x02 16);
      (ODelete (s2b "b"), repeat x00 16)] in
  enc_retrieve sha512 aes (s2b "pw") (s2b "/s") d (s2b "a") = Ok (s2b "secret") /\
  enc_retrieve sha512 aes (s2b "pw") (s2b "/s") d (s2b "b") = Err /\
  retrieve (s2b "/s") d (s2b "a") <> Ok (s2b "secret").
Proof. vm_compute. repeat split. discriminate. Qed.

(** ** C92: a name of the store stands for a file in its directory *)
(** A name is followed from the directory, component by component, *)
Theorem C92_name : forall base rel p, fpath base rel = p <-> walk [] (split x2f base ++ split x2f rel) p.
Proof. exact fpath_walk. Qed.
Print Assumptions C92_name.
(** so every file of the disk has a name, whatever the directory, *)
Theorem C92_refuted : forall base target, target <> [] -> Forall flat_name target ->
  exists rel, fpath base rel = target.
Proof. exact outside. Qed.
Print Assumptions C92_refuted.
(** and is read with it. *)
Theorem C92_refuted_reads : forall base d target c, consistent_fs d -> target <> [] -> Forall flat_name target -> content_at d target = Some c ->
  exists rel, retrieve base d rel = Ok c.
Proof. exact outside_read. Qed.
Print Assumptions C92_refuted_reads.
(** Names without ".." stay within. *)
Theorem C92_inside_partial : forall base rel, ~ In (s2b "..") (split x2f rel) -> within (fpath base []) (fpath base rel).
Proof. exact inside. Qed.
Print Assumptions C92_inside_partial.
Example C92_case : Forall flat_name [s2b "etc"; s2b "passwd"] /\
  fpath (s2b "/home/rod") (s2b "../../etc/./passwd") = [s2b "etc"; s2b "passwd"] /\
  ~ In (s2b "..") (split x2f (s2b "a/..b//c")) /\
  fpath (s2b "/home/rod") (s2b "a/..b//c") = [s2b "home"; s2b "rod"; s2b "a"; s2b "..b"; s2b "c"].
Proof.
  split; [repeat constructor; try discriminate; cbn; intuition discriminate|].
  split; [reflexivity|]. split; [cbn; intuition discriminate|reflexivity].
Qed.
