(** Properties of buckets, files and chunks (C26 for chunks, C42 - C45, C60 - C62). *)
From Verif Require Import Base Sha512 HashModel HashSpec HashProofs EntitiesModel FloatModel FileModel StoreModel
  BucketModel BucketSpec BucketProofs BucketMore JsonModel GrammarSpec GrammarProofs.

(** the chunks of a file, small enough for a slice index *)
Definition countable (f : bfile) : Prop := (N.of_nat (length (bf_chunks f)) < 2 ^ 63)%N.
(** no file below is larger than 2^53 bytes (8192 TiB) *)
Definition files_below_limit (e : entry) : Prop := forall names data, holds_file e names (Some data) -> (N.of_nat (length data) < 2 ^ 53)%N.

(** ** Objects for the cases *)
Definition ck_a : chunk := Chunk (Immutable (from_multi [itoa_u64 3; repeat x07 64]) 5) 3 (repeat x07 64).
Definition ck_b : chunk := Chunk (Immutable (from_multi [itoa_u64 12; repeat x08 64]) 6) 12 (repeat x08 64).
Definition fl_ab : bfile := BFile (Immutable (from_multi (s2b "a/b" :: map ck_hash [ck_a; ck_b])) 7) (s2b "a/b") [ck_a; ck_b].
Definition fl_b : bfile := BFile (Immutable (from_multi (s2b "c" :: map ck_hash [ck_b])) 7) (s2b "c") [ck_b].
Definition bu_ab : bucket := Bucket (Immutable (from_multi (map bf_hash [fl_ab; fl_b])) 8) [fl_ab; fl_b].
Lemma ck_a_built : built_chunk ck_a.
Proof. exists 0%Z, 3%N, (repeat x07 64), (Some 5%Z). split; [reflexivity|]. split; [reflexivity|]. apply chunk_now_iff. split; [discriminate|reflexivity]. Qed.
Lemma ck_b_built : built_chunk ck_b.
Proof. exists 0%Z, 12%N, (repeat x08 64), (Some 6%Z). split; [reflexivity|]. split; [reflexivity|]. apply chunk_now_iff. split; [discriminate|reflexivity]. Qed.
Lemma fl_ab_built : built_file fl_ab.
Proof.
  exists 0%Z, (s2b "a/b"), [ck_a; ck_b], (Some 7%Z). split; [repeat constructor; [apply ck_a_built|apply ck_b_built]|].
  apply bfile_now_iff. split; [discriminate|]. split; [discriminate|reflexivity].
Qed.
Lemma fl_b_built : built_file fl_b.
Proof.
  exists 0%Z, (s2b "c"), [ck_b], (Some 7%Z). split; [repeat constructor; apply ck_b_built|].
  apply bfile_now_iff. split; [discriminate|]. split; [discriminate|reflexivity].
Qed.
Lemma bu_ab_built : built_bucket bu_ab.
Proof.
  exists 0%Z, [fl_ab; fl_b], (Some 8%Z). split; [repeat constructor; [apply fl_ab_built|apply fl_b_built]|].
  apply bucket_now_iff. split; [discriminate|reflexivity].
Qed.

(** ** C26 *)
Theorem C26_chunk : forall c1 c2, built_chunk c1 -> built_chunk c2 -> ck_hash c1 = ck_hash c2 ->
  (ck_size c1 = ck_size c2 /\ ck_data c1 = ck_data c2) \/ sha_collision (chunk_text c1) (chunk_text c2).
Proof. exact chunk_commits. Qed.
Print Assumptions C26_chunk.
Example C26_chunk_case : built_chunk ck_a /\ built_chunk ck_b /\ ck_hash ck_a <> ck_hash ck_b.
Proof. split; [exact ck_a_built|]. split; [exact ck_b_built|]. vm_compute. discriminate. Qed.

(** ** C42 *)
(** For files of at least one chunk: consecutive pieces of exactly the chunk size (the
    last one less than twice as long) that concatenate to the file, each recorded with its
    length and hash. *)
Theorem C42_split_partial : forall wild clock size path data,
  (0 < size)%N -> (size <= N.of_nat (length data))%N -> (N.of_nat (length data) < 2 ^ 53)%N -> path <> [] ->
  exists f, dir_file wild clock size path (Some data) = Ok f /\ describes (N.to_nat size) path data f /\
    length (bf_chunks f) = Nat.div (length data) (N.to_nat size).
Proof. exact dir_file_ok. Qed.
Print Assumptions C42_split_partial.
(** The chunks determine the content, unless two pieces collide. *)
Theorem C42_determined_partial : forall c p1 p2 d1 d2 f, describes c p1 d1 f -> describes c p2 d2 f ->
  (p1 = p2 /\ d1 = d2) \/ exists a b, sha_collision a b /\ (exists u v, d1 = u ++ a ++ v) /\ (exists u v, d2 = u ++ b ++ v).
Proof. exact content_determined. Qed.
Print Assumptions C42_determined_partial.
(** Shorter files cannot be split at all. *)
Theorem C42_refuted : forall wild clock size path data,
  (size < 2 ^ 64)%N -> (N.of_nat (length data) < size)%N -> (N.of_nat (length data) < 2 ^ 53)%N ->
  dir_file wild clock size path (Some data) = Err.
Proof. exact dir_file_short. Qed.
Print Assumptions C42_refuted.
Example C42_case :
  match dir_file (fun _ => 0%Z) (fun i => i) 3 (s2b "a") (Some (s2b "0123456789")) with
  | Ok f => (map ck_size (bf_chunks f), map ck_data (bf_chunks f)) =
            ([3; 3; 4]%N, map from_bytes [s2b "012"; s2b "345"; s2b "6789"])
  | _ => False
  end.
Proof. vm_compute. reflexivity. Qed.
Example C42_case_short : dir_file (fun _ => 0%Z) (fun i => i) 3 (s2b "a") (Some (s2b "01")) = Err.
Proof. vm_compute. reflexivity. Qed.

(** ** C43 *)
(** Whatever is on the disk, no chunk, file or bucket is ever read back. *)
Theorem C43_refuted : forall h d,
  (forall c, chunk_retrieve h d <> Ok c) /\ (forall f, bfile_retrieve h d <> Ok f) /\ (forall b, bucket_retrieve h d <> Ok b).
Proof. exact never_retrieved. Qed.
Print Assumptions C43_refuted.
(** Retrieve crashes exactly on files with an object or null in them; everything else, no file included, is an error. *)
Definition object_or_null (d : bdisk) (k : bkind) (h : hash) : Prop :=
  exists text j, d k (hash_string h) = Some text /\ document text j /\ (j = JNull \/ exists m, j = JObj m).
Lemma empty_read : forall k d h, tr_empty k d h = Ok tt /\ object_or_null d k h \/ tr_empty k d h = Err /\ ~ object_or_null d k h.
Proof.
  intros k d h. unfold tr_empty, bread, unmarshal_empty, object_or_null. destruct (d k (hash_string h)) as [text|]; [|right; split; [reflexivity|intros (? & ? & E & _); discriminate]].
  cbn [rbind]. destruct (jparse text) as [j|] eqn:P.
  - destruct j; try (left; split; [reflexivity|]; exists text; eexists; split; [reflexivity|]; split; [apply jparse_iff; exact P|eauto]);
      (right; split; [reflexivity|]; intros (x & y & E & D & K); injection E as <-; apply jparse_iff in D; rewrite P in D; injection D as <-;
       destruct K as [K|[m K]]; discriminate).
  - right. split; [reflexivity|]. intros (x & y & E & D & _). injection E as <-. apply jparse_iff in D. congruence.
Qed.
Theorem C43_refuted_read : forall h d,
  (chunk_retrieve h d = Panic <-> object_or_null d BChunk h) /\ (bfile_retrieve h d = Panic <-> object_or_null d BFiles h) /\
  (bucket_retrieve h d = Panic <-> object_or_null d BBucket h) /\
  (~ object_or_null d BChunk h -> chunk_retrieve h d = Err) /\ (~ object_or_null d BFiles h -> bfile_retrieve h d = Err) /\
  (~ object_or_null d BBucket h -> bucket_retrieve h d = Err).
Proof.
  intros h d. unfold chunk_retrieve, bfile_retrieve, bucket_retrieve.
  destruct (empty_read BChunk d h) as [[E1 N1]|[E1 N1]], (empty_read BFiles d h) as [[E2 N2]|[E2 N2]], (empty_read BBucket d h) as [[E3 N3]|[E3 N3]];
    rewrite E1, E2, E3; cbn [rbind]; repeat split; intros; try discriminate; try reflexivity; try assumption; contradiction.
Qed.
Print Assumptions C43_refuted_read.
Example C43_read_case : let d := fun text : bytes => fun (_ : bkind) (_ : bytes) => Some text in
  chunk_retrieve [] (d (s2b " { ""a"" : 1 } ")) = Panic /\ bfile_retrieve [] (d (s2b "null")) = Panic /\ bucket_retrieve [] (d (s2b "[]")) = Err /\
  chunk_retrieve [] (d (s2b "{")) = Err /\ bucket_retrieve [] empty_bdisk = Err.
Proof. vm_compute. auto 10. Qed.
(** Saving a file or a bucket never succeeds. *)
Theorem C43_refuted_save_file : forall f s, built_file f -> countable f -> fst (bfile_save f s) <> Ok tt.
Proof. exact file_save_fails. Qed.
Print Assumptions C43_refuted_save_file.
Theorem C43_refuted_save_bucket : forall b s, built_bucket b -> Forall countable (bu_files b) -> fst (bucket_save b s) <> Ok tt.
Proof. exact bucket_save_fails. Qed.
Print Assumptions C43_refuted_save_bucket.
(** The buckets themselves are converted: it is their files that are not. *)
Theorem C43_transfer_partial : forall b, built_bucket b -> (N.of_nat (length (bu_files b)) < 2 ^ 63)%N -> bucket_to_transfer b = Ok (bu_hash b).
Proof. exact bucket_transfers. Qed.
Print Assumptions C43_transfer_partial.
(** A chunk can be saved, but then crashes every further Retrieve or Save of it. *)
Theorem C43_refuted_crash : forall c d, built_chunk c -> d BChunk (hash_string (ck_hash c)) = None ->
  exists s, chunk_save c (Bfs d []) = (Ok tt, s) /\
    chunk_retrieve (ck_hash c) (bfs_disk s) = Panic /\ chunk_save c s = (Panic, s) /\
    forall k n, (k, n) <> (BChunk, hash_string (ck_hash c)) -> bfs_disk s k n = d k n.
Proof.
  intros c d B H. eexists. split; [apply (chunk_saved c d B H)|].
  destruct (chunk_crash c (Bfs (bput d BChunk (hash_string (ck_hash c)) (Some empty_json)) []) B) as [A1 A2]; [apply bput_same|].
  split; [exact A1|]. split; [exact A2|]. intros k n N. apply bput_other. congruence.
Qed.
Print Assumptions C43_refuted_crash.
(** What is left of a file: its chunks are written and then the program crashes. *)
Theorem C43_leaves_chunks_partial : forall f d, built_file f -> countable f -> d BFiles (hash_string (bf_hash f)) = None ->
  NoDup (map ck_hash (bf_chunks f)) -> Forall (fun c => d BChunk (hash_string (ck_hash c)) = None) (bf_chunks f) ->
  exists d', bfile_save f (Bfs d []) = (Panic, Bfs d' []) /\
    (forall c, In c (bf_chunks f) -> d' BChunk (hash_string (ck_hash c)) = Some (s2b "{}")) /\
    (forall k n, (forall c, In c (bf_chunks f) -> (BChunk, hash_string (ck_hash c)) <> (k, n)) -> d' k n = d k n).
Proof. exact file_save_leaves. Qed.
Print Assumptions C43_leaves_chunks_partial.
Example C43_case : built_bucket bu_ab /\ Forall countable (bu_files bu_ab) /\
  fst (bucket_save bu_ab (Bfs empty_bdisk [])) = Panic /\ fst (chunk_save ck_a (Bfs empty_bdisk [])) = Ok tt /\ NoDup (map ck_hash (bf_chunks fl_ab)).
Proof.
  split; [exact bu_ab_built|]. split; [repeat constructor|]. split; [vm_compute; reflexivity|]. split; [vm_compute; reflexivity|].
  constructor; [|constructor; [intros []|constructor]]. intros [Q|[]]. revert Q. vm_compute. discriminate.
Qed.

(** ** C44 *)
(** Deleting a bucket or a file crashes the program without deleting anything. *)
Theorem C44_refuted : forall b s, built_bucket b -> Forall countable (bu_files b) -> bucket_delete b s = (Panic, s).
Proof. exact bucket_delete_panics. Qed.
Print Assumptions C44_refuted.
Theorem C44_refuted_file : forall f s, built_file f -> countable f -> bfile_delete f s = (Panic, s).
Proof. exact file_delete_panics. Qed.
Print Assumptions C44_refuted_file.
(** Deleting a chunk removes exactly its record. *)
Theorem C44_chunk_partial : forall c d, built_chunk c ->
  (d BChunk (hash_string (ck_hash c)) = None -> chunk_delete c (Bfs d []) = (Err, Bfs d [])) /\
  (d BChunk (hash_string (ck_hash c)) <> None ->
   exists d', chunk_delete c (Bfs d []) = (Ok tt, Bfs d' []) /\ d' BChunk (hash_string (ck_hash c)) = None /\
     forall k n, (k, n) <> (BChunk, hash_string (ck_hash c)) -> d' k n = d k n).
Proof.
  intros c d B. rewrite chunk_deleted by auto. cbn [bfs_disk]. destruct (d BChunk (hash_string (ck_hash c))) eqn:E.
  - split; [discriminate|]. intros _. eexists. split; [reflexivity|]. split; [apply bput_same|]. intros k n N. apply bput_other. congruence.
  - split; [reflexivity|]. intro Q. congruence.
Qed.
Print Assumptions C44_chunk_partial.
Theorem C44_chunk_faults_partial : forall c, built_chunk c -> deletes (chunk_delete c) BChunk (hash_string (ck_hash c)).
Proof. exact chunk_deletes. Qed.
Print Assumptions C44_chunk_faults_partial.
Theorem C44_data_partial : forall h, deletes (data_delete h) BData (hash_string h).
Proof. exact data_deletes. Qed.
Print Assumptions C44_data_partial.
Example C44_faults_case : fst (chunk_delete ck_a (Bfs (bfs_disk (snd (chunk_save ck_a (Bfs empty_bdisk [])))) [Denied])) = Err /\
  fst (chunk_delete ck_a (Bfs (bfs_disk (snd (chunk_save ck_a (Bfs empty_bdisk [])))) [Fine; Denied])) = Ok tt /\
  built_chunk ck_a.
Proof. split; [vm_compute; reflexivity|]. split; [vm_compute; reflexivity|]. exact ck_a_built. Qed.
Example C44_case : fst (bucket_delete bu_ab (snd (chunk_save ck_a (Bfs empty_bdisk [])))) = Panic /\
  fst (chunk_delete ck_a (snd (chunk_save ck_a (Bfs empty_bdisk [])))) = Ok tt.
Proof. vm_compute. split; reflexivity. Qed.

(** ** C45 *)
(** Failing operations included; torn writes are the subject of C62. *)
Theorem C45_addressed : forall os fl h x, no_torn fl ->
  data_retrieve h (bfs_disk (data_runs os (Bfs empty_bdisk fl))) = Ok x -> from_bytes x = h.
Proof. exact data_addressed. Qed.
Print Assumptions C45_addressed.
Theorem C45_saved : forall os x os' fl, no_torn fl ->
  let s := data_runs os (Bfs empty_bdisk fl) in
  fst (data_save x s) = Ok tt -> ~ In (DeleteData (from_bytes x)) os' ->
  exists y, data_retrieve (from_bytes x) (bfs_disk (data_runs os' (snd (data_save x s)))) = Ok y /\ (y = x \/ hash_coincidence y x).
Proof. exact data_saved. Qed.
Print Assumptions C45_saved.
Example C45_case :
  let os := [SaveData (s2b "x"); DeleteData (from_bytes (s2b "y")); SaveData (s2b "y"); DeleteData (from_bytes (s2b "x"))] in
  let s := data_runs os (Bfs empty_bdisk [Fine; Denied]) in
  no_torn [Fine; Denied] /\ fst (data_save (s2b "z") s) = Ok tt /\
  map (fun t => data_retrieve (from_bytes (s2b t)) (bfs_disk (snd (data_save (s2b "z") s)))) ["x"; "y"; "z"]%string = [Err; Err; Ok (s2b "z")].
Proof. split; [intros i [Q|[Q|[]]]; discriminate|]. vm_compute. split; reflexivity. Qed.

(** ** C60 *)
(** What is added is exactly the files of the folder, each under its path. *)
Theorem C60_exactly_the_files : forall wild clock size es fs, (0 < size < 2 ^ 64)%N -> proper (Dir (Some es)) -> files_below_limit (Dir (Some es)) ->
  dir_files wild clock size (Dir (Some es)) (s2b ".") = Ok fs ->
  (forall f, In f fs -> exists names data, holds_file (Dir (Some es)) names (Some data) /\ describes (N.to_nat size) (path_text names) data f) /\
  (forall names c, holds_file (Dir (Some es)) names c -> exists data f, c = Some data /\ In f fs /\ describes (N.to_nat size) (path_text names) data f) /\
  NoDup (map bf_path fs).
Proof. exact folder_ok. Qed.
Print Assumptions C60_exactly_the_files.
Theorem C60_long_files_partial : forall wild clock size es, (0 < size < 2 ^ 64)%N -> proper (Dir (Some es)) -> ~ unlistable (Dir (Some es)) ->
  (forall names c, holds_file (Dir (Some es)) names c -> exists d, c = Some d /\ (size <= N.of_nat (length d) < 2 ^ 53)%N) ->
  exists fs, dir_files wild clock size (Dir (Some es)) (s2b ".") = Ok fs.
Proof. exact folder_total. Qed.
Print Assumptions C60_long_files_partial.
(** One file shorter than the chunk size anywhere below the folder, and nothing is added. *)
Theorem C60_refuted : forall wild clock size e names d, (0 < size < 2 ^ 64)%N -> files_below_limit e -> holds_file e names (Some d) ->
  (N.of_nat (length d) < size)%N -> dir_files wild clock size e (s2b ".") = Err.
Proof. intros. eapply folder_refuted; eauto. intros d' Q. injection Q as <-. assumption. Qed.
Print Assumptions C60_refuted.
Definition a_folder : entry :=
  Dir (Some [(s2b "a", File (Some (s2b "01234"))); (s2b "b", Dir (Some [(s2b "a", File (Some (s2b "abc"))); (s2b "c", Dir (Some []))]))]).
Example C60_case : proper a_folder /\ files_below_limit a_folder /\ ~ unlistable a_folder /\
  match dir_files (fun _ => 0%Z) (fun _ i => i) 2 a_folder (s2b ".") with
  | Ok fs => map (fun f => (bf_path f, map ck_size (bf_chunks f))) fs = [(s2b "a", [2; 3]%N); (s2b "b/a", [3]%N)]
  | _ => False
  end /\
  dir_files (fun _ => 0%Z) (fun _ i => i) 4 a_folder (s2b ".") = Err.
Proof.
  split; [|split; [|split]].
  - repeat constructor; cbn; try (intros [Q|Q]; [discriminate|]; revert Q); try (intros [Q|Q]; [discriminate|]; revert Q); try discriminate; tauto.
  - assert (IF : forall x names c, holds_file (File x) names c -> c = x) by (intros x names c H; inversion H; reflexivity).
    assert (ID : forall es names c, holds_file (Dir (Some es)) names c -> exists n e p, In (n, e) es /\ holds_file e p c)
      by (intros es names c H; inversion H; subst; eauto).
    intros names data H. unfold a_folder in H. apply ID in H. destruct H as (n & e & p & I & H).
    destruct I as [I|[I|[]]]; injection I as <- <-.
    + apply IF in H. injection H as ->. reflexivity.
    + apply ID in H. destruct H as (n & e & q & I & H). destruct I as [I|[I|[]]]; injection I as <- <-.
      * apply IF in H. injection H as ->. reflexivity.
      * apply ID in H. destruct H as (n & e & r & [] & _).
  - assert (UF : forall x, ~ unlistable (File x)) by (intros x H; inversion H).
    assert (UD : forall es, unlistable (Dir (Some es)) -> exists n e, In (n, e) es /\ unlistable e) by (intros es H; inversion H; subst; eauto).
    intro H. unfold a_folder in H. apply UD in H. destruct H as (n & e & I & H). destruct I as [I|[I|[]]]; injection I as <- <-.
    + exact (UF _ H).
    + apply UD in H. destruct H as (n & e & I & H). destruct I as [I|[I|[]]]; injection I as <- <-.
      * exact (UF _ H).
      * apply UD in H. destruct H as (n & e & [] & _).
  - split; vm_compute; reflexivity.
Qed.

(** ** C61 *)
Theorem C61_bucket : forall b1 b2, built_bucket b1 -> built_bucket b2 -> bu_hash b1 = bu_hash b2 ->
  map bf_hash (bu_files b1) = map bf_hash (bu_files b2) \/ hash_coincidence (bucket_text b1) (bucket_text b2).
Proof. exact bucket_commits. Qed.
Print Assumptions C61_bucket.
Theorem C61_file_same_length_partial : forall f1 f2, built_file f1 -> built_file f2 -> length (bf_path f1) = length (bf_path f2) -> bf_hash f1 = bf_hash f2 ->
  (bf_path f1 = bf_path f2 /\ map ck_hash (bf_chunks f1) = map ck_hash (bf_chunks f2)) \/ sha_collision (file_text f1) (file_text f2).
Proof. exact file_commits. Qed.
Print Assumptions C61_file_same_length_partial.
(** In general the first chunk can move into the path. *)
Theorem C61_refuted : forall p c c' cs t, p <> [] -> built_chunk c -> built_chunk c' -> Forall built_chunk cs ->
  exists f1 f2, bfile_now 0 p (c :: c' :: cs) (Some t) = Ok f1 /\ bfile_now 0 (p ++ ck_hash c) (c' :: cs) (Some t) = Ok f2 /\
    bf_hash f1 = bf_hash f2 /\ bf_path f1 <> bf_path f2.
Proof. exact file_refuted. Qed.
Print Assumptions C61_refuted.
Example C61_case : built_bucket bu_ab /\ built_file fl_ab /\ built_file fl_b /\ bu_hash bu_ab = from_bytes (bf_hash fl_ab ++ bf_hash fl_b).
Proof. split; [exact bu_ab_built|]. split; [exact fl_ab_built|]. split; [exact fl_b_built|]. unfold bu_ab, bu_hash. cbn [bu_im im_hash]. unfold from_multi. cbn [map concat]. rewrite app_nil_r. reflexivity. Qed.

(** ** C62 *)
(** A write torn after [i] bytes returns an error and leaves a file that Retrieve serves
    under the hash of the whole. *)
Theorem C62_refuted : forall x i fl d, i < length x -> let s := Bfs d (Torn i :: fl) in
  fst (data_save x s) = Err /\ data_retrieve (from_bytes x) (bfs_disk (snd (data_save x s))) = Ok (firstn i x) /\ firstn i x <> x /\
  (from_bytes (firstn i x) = from_bytes x -> hash_coincidence (firstn i x) x).
Proof. exact data_torn. Qed.
Print Assumptions C62_refuted.
(** Whatever faults there were, what is served under a hash is the beginning of data that was saved and has that hash; *)
Theorem C62_beginning_partial : forall os fl h y, data_retrieve h (bfs_disk (data_runs os (Bfs empty_bdisk fl))) = Ok y ->
  exists x i, In (SaveData x) os /\ from_bytes x = h /\ y = firstn i x.
Proof. exact data_begun. Qed.
Print Assumptions C62_beginning_partial.
(** a save that reports no error has left all of it, also where a torn write was before; and no save touches other data. *)
Theorem C62_reported_partial : forall x s, let s' := snd (data_save x s) in
  (fst (data_save x s) = Ok tt /\ data_retrieve (from_bytes x) (bfs_disk s') = Ok x \/ fst (data_save x s) = Err) /\
  (forall h, h <> from_bytes x -> data_retrieve h (bfs_disk s') = data_retrieve h (bfs_disk s)).
Proof. exact data_reported. Qed.
Print Assumptions C62_reported_partial.
(** a torn save, and a second one that repairs it *)
Example C62_repair_case : let s := snd (data_save (s2b "data") (Bfs empty_bdisk [Torn 2])) in
  data_retrieve (from_bytes (s2b "data")) (bfs_disk s) = Ok (s2b "da") /\ fst (data_save (s2b "data") s) = Ok tt /\
  data_retrieve (from_bytes (s2b "data")) (bfs_disk (snd (data_save (s2b "data") s))) = Ok (s2b "data").
Proof. vm_compute. auto. Qed.
Example C62_case : let s := Bfs empty_bdisk [Torn 2] in data_retrieve (from_bytes (s2b "data")) (bfs_disk (snd (data_save (s2b "data") s))) = Ok (s2b "da").
Proof. vm_compute. reflexivity. Qed.
