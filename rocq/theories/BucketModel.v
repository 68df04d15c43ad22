(** Model of the file buckets: domain/memory/buckets, domain/transfers/buckets and
    application/identities/buckets (reading a folder).

    Simplifications:
    - As in StoreModel, every kind of object has its own file service and reading a file
      is reliable; what happens to writes and removals is given by [fault].
    - The maps built by the bucket and file builders are in IndexModel.v. *)
From Coq Require Import SpecFloat.
From Verif Require Import Base HashModel HashTreeModel EntitiesModel FloatModel JsonModel StoreModel.

(** ** Objects *)
(** domain/memory/buckets/files/chunks/chunk.go *)
Record chunk := Chunk { ck_im : immutable; ck_size : N; ck_data : hash }.
Definition ck_hash (c : chunk) : hash := im_hash (ck_im c).
(** domain/memory/buckets/files/chunks/builder.go:59-83 Now *)
Definition chunk_now (now : Z) (size : N) (data : option hash) (created : option Z) : res chunk :=
  if (size =? 0)%N then Err
  else match data with
       | None => Err
       | Some d =>
           let! h := FromMultiBytes [itoa_u64 size; d] in
           let! im := immutable_now now (Some h) created in
           Ok (Chunk im size d)
       end.
(** domain/memory/buckets/files/file.go *)
Record bfile := BFile { bf_im : immutable; bf_path : bytes; bf_chunks : list chunk }.
Definition bf_hash (f : bfile) : hash := im_hash (bf_im f).
(** domain/memory/buckets/files/builder.go:59-96 Now; nil chunks give an error as empty
    ones do *)
Definition bfile_now (now : Z) (path : bytes) (chunks : list chunk) (created : option Z) : res bfile :=
  match path, chunks with
  | [], _ | _, [] => Err
  | _, _ =>
      let! h := FromMultiBytes (path :: map ck_hash chunks) in
      let! im := immutable_now now (Some h) created in
      Ok (BFile im path chunks)
  end.
(** domain/memory/buckets/bucket.go *)
Record bucket := Bucket { bu_im : immutable; bu_files : list bfile }.
Definition bu_hash (b : bucket) : hash := im_hash (bu_im b).
(** domain/memory/buckets/builder.go:51-81 Now; nil files give an error as empty ones do *)
Definition bucket_now (now : Z) (files : list bfile) (created : option Z) : res bucket :=
  match files with
  | [] => Err
  | _ =>
      let! h := FromMultiBytes (map bf_hash files) in
      let! im := immutable_now now (Some h) created in
      Ok (Bucket im files)
  end.

(** ** Reading a folder: application/identities/buckets/application.go *)
(** the value of an int expression, modulo 2^64 *)
Definition int64 (z : Z) : Z := int_of_u64 (Z.to_N (z mod 2 ^ 64)).
(** [data[b:e]].  Simplification: the slice returned by ioutil.ReadFile has no spare
    capacity behind its end. *)
Definition slice (data : bytes) (b e : Z) : res bytes :=
  if ((0 <=? b) && (b <=? e) && (e <=? Z.of_nat (length data)))%Z
  then Ok (firstn (Z.to_nat (e - b)) (skipn (Z.to_nat b) data))
  else Panic.
(** application.go:187: [int(math.Floor(float64(len(data)) / float64(chunkSizeInBytes)))];
    [wild] where the conversion depends on the implementation *)
Definition loops (wild : float64 -> Z) (data : bytes) (size : N) : Z :=
  let x := f_div (f_of_Z (Z.of_nat (length data))) (f_of_Z (Z.of_N size)) in
  match f_floor_int x with Some n => n | None => wild x end.
(** application.go:190-202 and 205-218: one chunk *)
Definition piece_chunk (now : Z) (piece : bytes) : res chunk :=
  let! h := FromBytes piece in
  chunk_now 0 (N.of_nat (length piece)) (Some h) (Some now).
(** application.go:188-223, the loop from [i] on with [n] iterations left.  [clock i] is
    the time read for chunk [i]. *)
Fixpoint chunk_loop (clock : Z -> Z) (data : bytes) (size : N) (total : Z) (n : nat) (i : Z) : res (list chunk) :=
  match n with
  | O => Ok []
  | S n =>
      let begins := int64 (i * int_of_u64 size) in
      let! piece :=
        (if (i + 1 =? total)%Z then slice data begins (Z.of_nat (length data))
         else slice data begins (int64 ((i + 1) * int_of_u64 size))) in
      let! c := piece_chunk (clock i) piece in
      let! cs := chunk_loop clock data size total n (i + 1) in
      Ok (c :: cs)
  end.
(** application.go:178-227 dirFileToFile, of the content of the file ([None] if it cannot
    be read) *)
Definition dir_file (wild : float64 -> Z) (clock : Z -> Z) (size : N) (path : bytes) (content : option bytes) : res bfile :=
  match content with
  | None => Err
  | Some data =>
      let total := loops wild data size in
      let! cs := chunk_loop clock data size total (Z.to_nat total) 0 in
      bfile_now 0 path cs (Some (clock total))
  end.
(** What ioutil.ReadDir and ioutil.ReadFile find below a folder: files with their content
    and folders with their entries in the order of ReadDir; [None] if reading fails (for
    example a link to a folder, which counts as a file). *)
Inductive entry := File (content : option bytes) | Dir (entries : option (list (bytes * entry))).
(** filepath.Join(relativePath, name), where the first relative path is ".".
    Simplification: a name is a single path element other than "." and "..", so that
    filepath.Clean has nothing else to do. *)
Definition sub_path (rel name : bytes) : bytes := if bseq rel (s2b ".") then name else rel ++ x2f :: name.
(** application.go:141-176 dirToFiles.  [clock path i] is the time read for chunk [i] of
    the file at [path]. *)
Section Dir.
Variables (wild : float64 -> Z) (clock : bytes -> Z -> Z) (size : N).
Fixpoint dir_files (e : entry) (path : bytes) {struct e} : res (list bfile) :=
  match e with
  | File content => let! f := dir_file wild (clock path) size path content in Ok [f]
  | Dir None => Err
  | Dir (Some es) =>
      (fix go (es : list (bytes * entry)) : res (list bfile) :=
         match es with
         | [] => Ok []
         | (name, e) :: es =>
             let! fs := dir_files e (sub_path path name) in
             let! r := go es in
             Ok (fs ++ r)
         end) es
  end.
End Dir.

(** ** Stores *)
Inductive bkind := BChunk | BFiles | BBucket | BData.
Definition bkind_eqb (a b : bkind) : bool :=
  match a, b with BChunk, BChunk | BFiles, BFiles | BBucket, BBucket | BData, BData => true | _, _ => false end.
Definition bdisk := bkind -> bytes -> option bytes.
Definition bput (d : bdisk) (k : bkind) (n : bytes) (c : option bytes) : bdisk :=
  fun k' n' => if bkind_eqb k k' && bseq n n' then c else d k' n'.
(** the disk and the fate of the writes and removals to come; beyond the list all are fine *)
Record bfs := Bfs { bfs_disk : bdisk; bfs_faults : list fault }.
Definition bact := bfs -> res unit * bfs.
Definition bseq_act (a b : bact) : bact := fun s =>
  match a s with
  | (Ok _, s) => b s
  | r => r
  end.
Notation "a ;;; b" := (bseq_act a b) (at level 61, right associativity).
Definition blift {A} (x : res A) (k : A -> bact) : bact := fun s =>
  match x with
  | Ok a => k a s
  | Err => (Err, s)
  | Panic => (Panic, s)
  end.
Definition bunless {A} (r : bdisk -> res A) (a : bact) : bact := fun s =>
  match r (bfs_disk s) with
  | Ok _ => (Ok tt, s)
  | Err => a s
  | Panic => (Panic, s)
  end.
Fixpoint beach {A} (f : A -> bact) (l : list A) : bact :=
  match l with
  | [] => fun s => (Ok tt, s)
  | x :: l => f x ;;; beach f l
  end.
(** libs/file/file_disk_service.go:24-32 Save *)
Definition bwrite (k : bkind) (n c : bytes) : bact := fun s =>
  let d := bfs_disk s in
  match bfs_faults s with
  | [] => (Ok tt, Bfs (bput d k n (Some c)) [])
  | Fine :: fl => (Ok tt, Bfs (bput d k n (Some c)) fl)
  | Denied :: fl => (Err, Bfs d fl)
  | Torn i :: fl => (Err, Bfs (bput d k n (Some (firstn i c))) fl)
  end.
(** libs/file/file_disk_service.go:35-43 Delete; os.Remove removes the file or fails *)
Definition bremove (k : bkind) (n : bytes) : bact := fun s =>
  let d := bfs_disk s in
  match d k n with
  | None => (Err, s)
  | Some _ =>
      match bfs_faults s with
      | [] => (Ok tt, Bfs (bput d k n None) [])
      | Fine :: fl => (Ok tt, Bfs (bput d k n None) fl)
      | _ :: fl => (Err, Bfs d fl)
      end
  end.
(** libs/file/file_disk_repository.go:21-29 Retrieve *)
Definition bread (d : bdisk) (k : bkind) (n : bytes) : res bytes :=
  match d k n with Some c => Ok c | None => Err end.

(** The transfer structs chunk, file and bucket have unexported fields only and no JSON
    methods: json.Marshal writes an object without members, json.Unmarshal accepts every
    object and null and leaves the struct empty. *)
Definition empty_json : bytes := s2b "{}".
Definition unmarshal_empty (c : bytes) : res unit :=
  match jparse c with
  | Some (JObj _) | Some JNull => Ok tt
  | _ => Err
  end.
(** domain/transfers/buckets/files/chunks/adapter.go:14-22 ToChunk, files/adapter.go:14-22
    ToFile, adapter.go:14-22 ToBucket after the Retrieve of the repository.go beside them:
    an empty struct *)
Definition tr_empty (k : bkind) (d : bdisk) (h : hash) : res unit :=
  let! c := bread d k (hash_string h) in unmarshal_empty c.

(** *** Chunks *)
(** domain/memory/buckets/files/chunks/repository.go:26-36: CreatedOn calls a method of a
    nil interface *)
Definition chunk_retrieve (h : hash) (d : bdisk) : res chunk :=
  let! _ := tr_empty BChunk d h in Panic.
(** chunks/adapter.go:22-28 with domain/transfers/buckets/files/chunks/builder.go:63-82;
    only the hash of the result is used *)
Definition chunk_to_transfer (c : chunk) : res hash :=
  if (ck_size c =? 0)%N then Err else Ok (ck_hash c).
(** chunks/service.go:28-41 Save *)
Definition chunk_save (c : chunk) : bact :=
  bunless (chunk_retrieve (ck_hash c)) (
  blift (chunk_to_transfer c) (fun h => bwrite BChunk (hash_string h) empty_json)).
(** chunks/service.go:56-63 Delete *)
Definition chunk_delete (c : chunk) : bact :=
  blift (chunk_to_transfer c) (fun h => bremove BChunk (hash_string h)).

(** *** Files *)
(** domain/memory/buckets/files/repository.go:30-51: Parent of a nil hash tree *)
Definition bfile_retrieve (h : hash) (d : bdisk) : res bfile :=
  let! _ := tr_empty BFiles d h in Panic.
(** domain/transfers/buckets/files/builder.go:72-101 Now.  createBuilder (22-34) does not
    store the immutable builder it is given, so that line 95 calls a method of a nil
    interface. *)
Definition tfile_now (h : hash) (path : bytes) (chunks : hashtree) (amount : N) (created : Z) : res hash :=
  match path with
  | [] => Err
  | _ =>
      if (amount =? 0)%N then Err
      else if (Z.of_nat (ht_length chunks) <? int_of_u64 amount)%Z then Err
      else Panic
  end.
(** files/adapter.go:26-50 ToTransfer *)
Definition bfile_to_transfer (f : bfile) : res hash :=
  let! ht := hashtree_of_blocks (map ck_hash (bf_chunks f)) in
  tfile_now (bf_hash f) (bf_path f) ht (N.of_nat (length (bf_chunks f))) (im_created (bf_im f)).
(** files/service.go:32-51 Save *)
Definition bfile_save (f : bfile) : bact :=
  bunless (bfile_retrieve (bf_hash f)) (
  beach chunk_save (bf_chunks f) ;;;
  blift (bfile_to_transfer f) (fun h => bwrite BFiles (hash_string h) empty_json)).
(** files/service.go:66-73 Delete *)
Definition bfile_delete (f : bfile) : bact :=
  blift (bfile_to_transfer f) (fun h => bremove BFiles (hash_string h)).

(** *** Buckets *)
(** domain/memory/buckets/repository.go:30-50 *)
Definition bucket_retrieve (h : hash) (d : bdisk) : res bucket :=
  let! _ := tr_empty BBucket d h in Panic.
(** domain/memory/buckets/adapter.go:26-43 ToTransfer with
    domain/transfers/buckets/builder.go:65-90 Now *)
Definition bucket_to_transfer (b : bucket) : res hash :=
  let! ht := hashtree_of_blocks (map bf_hash (bu_files b)) in
  let amount := N.of_nat (length (bu_files b)) in
  if (amount =? 0)%N then Err
  else if (Z.of_nat (ht_length ht) <? int_of_u64 amount)%Z then Err
  else Ok (bu_hash b).
(** domain/memory/buckets/service.go:32-51 Save *)
Definition bucket_save (b : bucket) : bact :=
  bunless (bucket_retrieve (bu_hash b)) (
  beach bfile_save (bu_files b) ;;;
  blift (bucket_to_transfer b) (fun h => bwrite BBucket (hash_string h) empty_json)).
(** domain/memory/buckets/service.go:54-67 Delete *)
Definition bucket_delete (b : bucket) : bact :=
  beach bfile_delete (bu_files b) ;;;
  blift (bucket_to_transfer b) (fun h => bremove BBucket (hash_string h)).

(** *** Chunk data: domain/transfers/buckets/files/chunks/data *)
(** service.go:23-30 Save *)
Definition data_save (data : bytes) : bact :=
  blift (FromBytes data) (fun h => bwrite BData (hash_string h) data).
(** service.go:33-35 Delete *)
Definition data_delete (h : hash) : bact := bremove BData (hash_string h).
(** repository.go:21-23 Retrieve *)
Definition data_retrieve (h : hash) (d : bdisk) : res bytes := bread d BData (hash_string h).
