(** Properties of identities, wallets and statements (C46, C63, C64). *)
From Verif Require Import Base BaseFacts Sha512 HashModel HashSpec HashProofs EntitiesModel SignModel PiastresModel JsonModel JsonProofs
  TimeModel MemJsonModel CodecProofs MemSpec ToyCurve BucketModel BucketSpec IdentityModel IdentitySpec IdentityProofs IdentityMore.

(** ** C46: a wallet can be built *)
(** No input whatever gives a wallet ... *)
Theorem C46_refuted : forall (C : Curve) now name st (bills : list (@wbill C)) description created,
  name <> [] ->
  wallet_now now name st bills description created = match st with Some _ => Err | None => Panic end.
Proof.
  intros C now name st bills description created N. rewrite wallet_now_is. apply bseq_neq in N. rewrite N. reflexivity.
Qed.
Print Assumptions C46_refuted.
(** ... nor a stored wallet, ... *)
Theorem C46_refuted_transfer : forall h name st bills description created w,
  twallet_now h name st bills description created <> Ok w.
Proof. exact twallet_never. Qed.
Print Assumptions C46_refuted_transfer.
(** it crashes exactly where a hash and a name, but no statement, were given, ... *)
Theorem C46_refuted_transfer_crash : forall h name st bills description created,
  (twallet_now h name st bills description created = Panic <-> h <> None /\ name <> [] /\ st = None) /\
  (twallet_now h name st bills description created = Err <-> ~ (h <> None /\ name <> [] /\ st = None)).
Proof.
  intros [h|] [|a name] [st|] bills description created; cbn; split; split; intro H; try discriminate; try reflexivity;
    try (repeat split; congruence); try (intros (A & B & D); congruence); try (destruct H as (A & B & D); congruence); 
    exfalso; apply H; repeat split; congruence.
Qed.
Print Assumptions C46_refuted_transfer_crash.
(** ... so that no stored wallet is ever retrieved, whatever is on the disk. *)
Theorem C46_refuted_retrieve : forall h d w, part_retrieve d_twallet h d <> Ok w.
Proof. exact retrieve_twallet_never. Qed.
Print Assumptions C46_refuted_retrieve.
(** the rest of the claim: a wallet without a name is refused *)
Theorem C46_name_partial : forall (C : Curve) now st (bills : list (@wbill C)) description created,
  wallet_now now [] st bills description created = Err.
Proof. intros. reflexivity. Qed.
Print Assumptions C46_name_partial.
Example C46_case : let s := Statement (C := toy) (Immutable (repeat x01 64) 3) [] [] in
  wallet_now 5 (s2b "savings") (Some s) [] [] None = Err /\ wallet_now (C := toy) 5 (s2b "savings") None [] [] None = Panic.
Proof. split; reflexivity. Qed.

(** ** C63: the hashes of entries, statements and identities commit to their contents *)
Definition a_trx (b : byte) : @transaction toy := Transaction (Immutable (repeat b 64) 4) None (Some (repeat x09 64)) [].
Definition entry_a : mentry (C := toy) :=
  MEntry (Immutable (from_bytes (s2b "rent" ++ concat (map tx_hash [a_trx x01; a_trx x02]))) 5) (s2b "rent") [a_trx x01; a_trx x02] (s2b "may").
Definition entry_b : mentry (C := toy) :=
  MEntry (Immutable (from_bytes (s2b "food" ++ concat (map tx_hash [a_trx x03]))) 6) (s2b "food") [a_trx x03] [].
Lemma entry_a_built : built_entry entry_a.
Proof.
  exists 0%Z, (s2b "rent"), [a_trx x01; a_trx x02], (s2b "may"), (Some 5%Z). split; [repeat constructor|].
  apply entry_now_iff. repeat split; discriminate.
Qed.
Lemma entry_b_built : built_entry entry_b.
Proof.
  exists 0%Z, (s2b "food"), [a_trx x03], [], (Some 6%Z). split; [repeat constructor|].
  apply entry_now_iff. repeat split; discriminate.
Qed.
(** The boundary between the name and the transactions of an entry is not hashed, ... *)
Theorem C63_refuted_entry : forall (C : Curve) now name (t t' : @transaction C) trx description description' created, name <> [] ->
  exists e1 e2, entry_now now name (t :: t' :: trx) description created = Ok e1 /\
    entry_now now (name ++ tx_hash t) (t' :: trx) description' created = Ok e2 /\ en_hash e1 = en_hash e2.
Proof. exact @entry_ambiguous. Qed.
Print Assumptions C63_refuted_entry.
(** ... nor is its description, ... *)
Theorem C63_refuted_description : forall (C : Curve) now name trx description description' created (e : @mentry C),
  entry_now now name trx description created = Ok e ->
  exists e', entry_now now name trx description' created = Ok e' /\ en_hash e' = en_hash e /\ en_description e' = description'.
Proof. exact @entry_description. Qed.
Print Assumptions C63_refuted_description.
(** ... nor whether an entry of a statement is incoming or outgoing, ... *)
Theorem C63_refuted_statement : forall (C : Curve) now (l1 l2 : list (@mentry C)) created, l2 <> [] ->
  exists s1 s2, statement_now now (l1 ++ l2) [] created = Ok s1 /\ statement_now now l1 l2 created = Ok s2 /\
    sm_hash s1 = sm_hash s2 /\ sm_outgoing s1 = [] /\ sm_outgoing s2 = l2.
Proof. exact @statement_ambiguous. Qed.
Print Assumptions C63_refuted_statement.
(** ... nor the boundaries between the seed, the name and the root of an identity. *)
Theorem C63_refuted_identity : forall (C : Curve) now1 now2 s1 n1 r1 s2 n2 r2 created updated (i1 : @identity C),
  s1 ++ n1 ++ r1 = s2 ++ n2 ++ r2 -> s2 <> [] -> n2 <> [] -> r2 <> [] ->
  identity_now now1 now2 s1 n1 r1 [] [] created updated = Ok i1 ->
  exists i2 : identity, identity_now now1 now2 s2 n2 r2 [] [] created updated = Ok i2 /\ id_hash i2 = id_hash i1 /\
    id_seed i2 = s2 /\ id_name i2 = n2 /\ id_root i2 = r2.
Proof. exact @identity_ambiguous. Qed.
Print Assumptions C63_refuted_identity.
(** The hash of a bucket of an identity is that of its path, whatever the bucket contains. *)
Theorem C63_refuted_bucket : forall abs missing now b path key created i abs' missing' now' b' path' key' created' i',
  ibucket_now abs missing now b path key created = Ok i -> ibucket_now abs' missing' now' b' path' key' created' = Ok i' ->
  ib_path i = ib_path i' -> ib_hash i = ib_hash i'.
Proof. exact identity_bucket_hash. Qed.
Print Assumptions C63_refuted_bucket.
Example C63_refuted_case :
  (* a seed "ab" and a name "c" against a seed "a" and a name "bc" *)
  match identity_now (C := toy) 4 5 (s2b "ab") (s2b "c") (s2b "/d") [] [] None None,
        identity_now (C := toy) 4 5 (s2b "a") (s2b "bc") (s2b "/d") [] [] None None with
  | Ok i, Ok i' => bseq (id_hash i) (id_hash i') && negb (bseq (id_seed i) (id_seed i'))
  | _, _ => false
  end = true /\
  match ibucket_now (fun p => Ok (x2f :: p)) (fun _ => false) 5 (Some (Bucket (Immutable (repeat x01 64) 2) [])) (s2b "w") (Some []) None,
        ibucket_now Ok (fun _ => false) 6 (Some (Bucket (Immutable (repeat x02 64) 2) [])) (s2b "/w") (Some [x01]) None with
  | Ok i, Ok i' => bseq (ib_hash i) (ib_hash i') && negb (bseq (bu_hash (ib_bucket i)) (bu_hash (ib_bucket i')))
  | _, _ => false
  end = true.
Proof. split; vm_compute; reflexivity. Qed.

(** What is left, with the lengths and counts given: the hash determines the contents, up to an explicit coincidence. *)
Theorem C63_entry_partial : forall (C : Curve) (e1 e2 : @mentry C), built_entry e1 -> built_entry e2 ->
  length (en_name e1) = length (en_name e2) -> en_hash e1 = en_hash e2 ->
  (en_name e1 = en_name e2 /\ map tx_hash (en_trx e1) = map tx_hash (en_trx e2)) \/ hash_coincidence (entry_text e1) (entry_text e2).
Proof. exact @entry_commits. Qed.
Print Assumptions C63_entry_partial.
Theorem C63_statement_partial : forall (C : Curve) (s1 s2 : @statement C), built_statement s1 -> built_statement s2 ->
  length (sm_incoming s1) = length (sm_incoming s2) -> sm_hash s1 = sm_hash s2 ->
  (map en_hash (sm_incoming s1) = map en_hash (sm_incoming s2) /\ map en_hash (sm_outgoing s1) = map en_hash (sm_outgoing s2)) \/
  hash_coincidence (statement_text s1) (statement_text s2).
Proof. exact @statement_commits. Qed.
Print Assumptions C63_statement_partial.
(** without the counts, the sequence of all the entries is determined *)
Theorem C63_statement_all_partial : forall (C : Curve) (s1 s2 : @statement C), built_statement s1 -> built_statement s2 -> sm_hash s1 = sm_hash s2 ->
  map en_hash (sm_incoming s1 ++ sm_outgoing s1) = map en_hash (sm_incoming s2 ++ sm_outgoing s2) \/
  hash_coincidence (statement_text s1) (statement_text s2).
Proof. exact @statement_all. Qed.
Print Assumptions C63_statement_all_partial.
Theorem C63_identity_partial : forall (C : Curve) (i1 i2 : @identity C), built_identity i1 -> built_identity i2 ->
  length (id_seed i1) = length (id_seed i2) -> length (id_name i1) = length (id_name i2) ->
  length (id_root i1) = length (id_root i2) -> length (id_wallets i1) = length (id_wallets i2) -> id_hash i1 = id_hash i2 ->
  (id_seed i1 = id_seed i2 /\ id_name i1 = id_name i2 /\ id_root i1 = id_root i2 /\
   map wt_hash (id_wallets i1) = map wt_hash (id_wallets i2) /\ map ib_hash (id_buckets i1) = map ib_hash (id_buckets i2)) \/
  hash_coincidence (identity_text i1) (identity_text i2).
Proof. exact @identity_commits. Qed.
Print Assumptions C63_identity_partial.
Example C63_case :
  (exists s1 s2, statement_now 1 [entry_a] [entry_b] None = Ok s1 /\ statement_now 2 [entry_a] [entry_b] None = Ok s2 /\
    built_statement s1 /\ built_statement s2 /\ s1 <> s2 /\ sm_hash s1 = sm_hash s2) /\
  built_entry entry_a /\ length (en_name entry_a) = length (en_name entry_b).
Proof.
  split; [|split; [apply entry_a_built|reflexivity]]. rewrite !statement_now_is. eexists. eexists. split; [reflexivity|]. split; [reflexivity|].
  split; [|split; [|split; [|unfold sm_hash; cbn [sm_im im_hash]; reflexivity]]].
  3:{ intro E. apply (f_equal (fun s => im_created (sm_im s))) in E. cbn [sm_im im_created] in E. discriminate E. }
  - exists 1%Z, [entry_a], [entry_b], None. split; [repeat constructor; apply entry_a_built|]. split; [repeat constructor; apply entry_b_built|]. apply statement_now_is.
  - exists 2%Z, [entry_a], [entry_b], None. split; [repeat constructor; apply entry_a_built|]. split; [repeat constructor; apply entry_b_built|]. apply statement_now_is.
Qed.

(** ** C64: what is retrieved from the identity stores is what was saved *)
(** Entries, statements and wallet bills: after any history of saving and deleting, a hash
    gives exactly the object last saved with it. *)
Theorem C64_entries_partial : forall os h, Forall (fun o => good_tentry (part_of_op o)) os ->
  part_retrieve d_tentry h (part_runs e_tentry (fun t => im_hash (te_im t)) os (fun _ => None)) =
  part_answer (part_last (fun t => im_hash (te_im t)) h os).
Proof. exact (part_history good_tentry e_tentry d_tentry _ tentry_codec e_tentry_yes). Qed.
Print Assumptions C64_entries_partial.
Theorem C64_statements_partial : forall os h, Forall (fun o => good_tstatement (part_of_op o)) os ->
  part_retrieve d_tstatement h (part_runs e_tstatement (fun t => im_hash (ts_im t)) os (fun _ => None)) =
  part_answer (part_last (fun t => im_hash (ts_im t)) h os).
Proof. exact (part_history good_tstatement e_tstatement d_tstatement _ tstatement_codec e_tstatement_yes). Qed.
Print Assumptions C64_statements_partial.
Theorem C64_bills_partial : forall (C : Curve) os h, Forall (fun o => good_twbill (C := C) (part_of_op o)) os ->
  part_retrieve d_twbill h (part_runs e_twbill (fun t => im_hash (tw_im t)) os (fun _ => None)) =
  part_answer (part_last (fun t => im_hash (tw_im t)) h os).
Proof. exact (fun C => part_history good_twbill e_twbill d_twbill _ (twbill_codec (C := C)) e_twbill_yes). Qed.
Print Assumptions C64_bills_partial.
(** An identity does not come back as it was saved: its last update is the time of reading, ... *)
Theorem C64_refuted : forall now t d, good_tidentity t -> mu_updated (td_mu t) <> now ->
  exists d', tidentity_save t d = Ok d' /\ tidentity_retrieve now (mu_hash (td_mu t)) (td_seed t) d' <> Ok t.
Proof. exact update_time_lost. Qed.
Print Assumptions C64_refuted.
(** names, seeds and roots that are not Unicode never come back at all, *)
Theorem C64_refuted_not_unicode : forall t d, ~ (unicode (td_seed t) /\ unicode (td_name t) /\ unicode (td_root t)) ->
  dated (mu_created (td_mu t)) ->
  (exists d', tidentity_save t d = Ok d') /\ forall now h seed d', tidentity_retrieve now h seed d' <> Ok t.
Proof. exact identity_lost. Qed.
Print Assumptions C64_refuted_not_unicode.
Theorem C64_refuted_entry_not_unicode : forall t d, ~ unicode (te_name t) -> dated (im_created (te_im t)) ->
  (exists d', part_save e_tentry (fun t => im_hash (te_im t)) t d = Ok d') /\ forall h d', part_retrieve d_tentry h d' <> Ok t.
Proof. exact entry_lost. Qed.
Print Assumptions C64_refuted_entry_not_unicode.
(** ... everything else does, after any history of saving and deleting, to who knows both
    the hash and the seed; other hashes or seeds give nothing of it, up to an explicit
    SHA-512 collision. *)
Theorem C64_identity_partial : forall os h seed now, length h = 64 -> Forall (fun o => good_tidentity (of_op o)) os ->
  (tidentity_retrieve now h seed (identity_runs os (fun _ => None)) = identity_answer now (identity_last h seed os)) \/
  (exists o, In o os /\
    sha_collision (hash_string h ++ seed) (hash_string (mu_hash (td_mu (of_op o))) ++ td_seed (of_op o))).
Proof. exact identity_history. Qed.
Print Assumptions C64_identity_partial.

Definition te_a : tentry := TEntry (Immutable (repeat x01 64) 4) (s2b "rent") [repeat x02 64; repeat x03 64] (s2b "may").
Definition te_b : tentry := TEntry (Immutable (repeat x04 64) 5) (s2b "food") [repeat x02 64] [].
Definition td_a : tidentity :=
  TIdentity (Mutable (repeat x05 64) 10 20) (s2b "correct horse") (s2b "joe") (s2b "/home/joe") [repeat x06 64] [repeat x07 64; repeat x08 64].
Lemma te_a_good : good_tentry te_a.
Proof. unfold good_tentry, good_tidentity, dated. repeat match goal with |- _ /\ _ => split end; try discriminate; try (apply unicode_dec; reflexivity); repeat constructor; vm_compute; congruence. Qed.
Lemma te_b_good : good_tentry te_b.
Proof. unfold good_tentry, good_tidentity, dated. repeat match goal with |- _ /\ _ => split end; try discriminate; try (apply unicode_dec; reflexivity); repeat constructor; vm_compute; congruence. Qed.
Lemma td_a_good : good_tidentity td_a.
Proof. unfold good_tentry, good_tidentity, dated. repeat match goal with |- _ /\ _ => split end; try discriminate; try (apply unicode_dec; reflexivity); repeat constructor; vm_compute; congruence. Qed.
Definition td_latin : tidentity :=
  TIdentity (Mutable (repeat x05 64) 10 20) (s2b "correct horse") [x6a; xf6] (s2b "/home/joe") [repeat x06 64] [].
Example C64_case_latin : ~ unicode (td_name td_latin) /\ dated (mu_created (td_mu td_latin)) /\
  (match tidentity_save td_latin (fun _ => None) with
   | Ok d => match tidentity_retrieve 30 (repeat x05 64) (s2b "correct horse") d with Ok t => Ok (td_name t) | _ => Err end
   | _ => Err
   end) = Ok [x6a; xef; xbf; xbd].
Proof.
  split; [intro U; apply UnicodeProofs.clean_iff in U; vm_compute in U; discriminate U|].
  split; [unfold dated; split; vm_compute; congruence|vm_compute; reflexivity].
Qed.
Example C64_case :
  let os := [SavePart te_a; SavePart te_b; DeletePart te_a] in
  Forall (fun o => good_tentry (part_of_op o)) os /\
  part_last (fun t => im_hash (te_im t)) (repeat x04 64) os = Some te_b /\
  part_last (fun t => im_hash (te_im t)) (repeat x01 64) os = None /\
  good_tidentity td_a /\ mu_updated (td_mu td_a) <> 30%Z /\
  identity_last (repeat x05 64) (s2b "correct horse") [SaveIdentity td_a] = Some td_a /\
  identity_last (repeat x05 64) (s2b "Correct horse") [SaveIdentity td_a] = None.
Proof.
  cbv zeta. split; [repeat constructor; first [apply te_a_good|apply te_b_good]|]. split; [reflexivity|]. split; [reflexivity|].
  split; [apply td_a_good|]. split; [discriminate|]. split; reflexivity.
Qed.
