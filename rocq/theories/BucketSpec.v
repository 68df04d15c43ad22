(** What buckets, files and chunks are supposed to be. *)
From Verif Require Import Base HashModel EntitiesModel FileModel StoreModel BucketModel.

(** ** Built objects *)
Definition built_chunk (c : chunk) : Prop :=
  exists now size data created, (size < 2 ^ 64)%N /\ length data = 64 /\ chunk_now now size (Some data) created = Ok c.
Definition built_file (f : bfile) : Prop :=
  exists now path chunks created, Forall built_chunk chunks /\ bfile_now now path chunks created = Ok f.
Definition built_bucket (b : bucket) : Prop :=
  exists now files created, Forall built_file files /\ bucket_now now files created = Ok b.
(** the encodings that are hashed *)
Definition chunk_text (c : chunk) : bytes := itoa_u64 (ck_size c) ++ ck_data c.
Definition file_text (f : bfile) : bytes := bf_path f ++ concat (map ck_hash (bf_chunks f)).
Definition bucket_text (b : bucket) : bytes := concat (map bf_hash (bu_files b)).

(** ** Splitting *)
(** pieces of [c] bytes that make up [data]; the last one has less than twice as many *)
Definition pieces_of (c : nat) (data : bytes) (pieces : list bytes) : Prop :=
  concat pieces = data /\
  exists init last, pieces = init ++ [last] /\ Forall (fun p => length p = c) init /\ c <= length last < 2 * c.
(** the chunk records the length and the hash of the piece *)
Definition records (k : chunk) (p : bytes) : Prop :=
  ck_size k = N.of_nat (length p) /\ ck_data k = from_bytes p /\
  ck_hash k = from_bytes (itoa (Z.of_nat (length p)) ++ from_bytes p).
(** the file [f] at [path] with this content, in chunks of [c] bytes *)
Definition describes (c : nat) (path content : bytes) (f : bfile) : Prop :=
  bf_path f = path /\ exists pieces, pieces_of c content pieces /\ Forall2 records (bf_chunks f) pieces.

(** ** Folders *)
(** below [e], the path [names] leads to a file with this content *)
Inductive holds_file : entry -> list bytes -> option bytes -> Prop :=
| HF_file : forall c, holds_file (File c) [] c
| HF_dir : forall es n e p c, In (n, e) es -> holds_file e p c -> holds_file (Dir (Some es)) (n :: p) c.
(** a folder that cannot be listed *)
Inductive unlistable : entry -> Prop :=
| UL_here : unlistable (Dir None)
| UL_below : forall es n e, In (n, e) es -> unlistable e -> unlistable (Dir (Some es)).
(** the text of a path *)
Fixpoint path_text (names : list bytes) : bytes :=
  match names with
  | [] => []
  | [n] => n
  | n :: names => n ++ x2f :: path_text names
  end.
(** names as the file system has them: not empty, not ".", without "/" and different
    within a folder *)
Inductive proper : entry -> Prop :=
| PR_file : forall c, proper (File c)
| PR_none : proper (Dir None)
| PR_dir : forall es, NoDup (map fst es) ->
    Forall (fun p => fst p <> [] /\ fst p <> s2b "." /\ ~ In x2f (fst p) /\ proper (snd p)) es -> proper (Dir (Some es)).

(** ** Chunk data histories *)
Inductive data_op := SaveData (data : bytes) | DeleteData (h : hash).
Definition data_run (o : data_op) : bact :=
  match o with SaveData x => data_save x | DeleteData h => data_delete h end.
(** run a history; an error does not end it *)
Fixpoint data_runs (os : list data_op) (s : bfs) : bfs :=
  match os with
  | [] => s
  | o :: os => data_runs os (snd (data_run o s))
  end.
Definition no_torn (l : list fault) : Prop := forall i, ~ In (Torn i) l.
Definition empty_bdisk : bdisk := fun _ _ => None.

(** Whatever the disk does, deleting a chunk, or the data of a chunk, ends without a crash: it
    reports success exactly when the record was there and is now gone, and otherwise an error
    that leaves every record as it was. *)
Definition deletes (act : bact) (k0 : bkind) (n0 : bytes) : Prop := forall s,
  fst (act s) <> Panic /\
  (fst (act s) = Ok tt -> bfs_disk s k0 n0 <> None /\ bfs_disk (snd (act s)) k0 n0 = None) /\
  (fst (act s) = Err -> forall k n, bfs_disk (snd (act s)) k n = bfs_disk s k n) /\
  (bfs_disk s k0 n0 <> None -> hd Fine (bfs_faults s) = Fine -> fst (act s) = Ok tt) /\
  forall k n, (k, n) <> (k0, n0) -> bfs_disk (snd (act s)) k n = bfs_disk s k n.
