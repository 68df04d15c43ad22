(** Model of the maps in which buckets and files look for their parts.  The objects keep the
    slice they were given (see SliceModel.v) and the map that was made of it. *)
From Verif Require Import Base HashModel EntitiesModel BucketModel.
From Verif Require SliceModel.

(** a map with strings as keys: what was assigned, the latest first *)
Definition gomap (V : Type) := list (bytes * V).
(** m[k] = v *)
Definition mput {V} (m : gomap V) (k : bytes) (v : V) : gomap V := (k, v) :: m.
(** v, ok := m[k] *)
Fixpoint mget {V} (m : gomap V) (k : bytes) : option V :=
  match m with
  | [] => None
  | (k', v) :: m => if bseq k' k then Some v else mget m k
  end.
(** domain/memory/buckets/builder.go:75-78: the files by their paths *)
Definition files_map (fs : list bfile) : gomap bfile := fold_left (fun m f => mput m (bf_path f) f) fs [].
(** domain/memory/buckets/files/builder.go:90-93: the chunks by the texts of their hashes *)
Definition chunks_map (cs : list chunk) : gomap chunk := fold_left (fun m c => mput m (hash_string (ck_hash c)) c) cs [].

(** domain/memory/buckets/bucket.go:13-17 *)
Record hbucket := HBucket { hu_im : immutable; hu_files : SliceModel.slice; hu_map : gomap bfile }.
(** builder.go:51-81 Now *)
Definition hbucket_now (h : SliceModel.arrays bfile) (now : Z) (fs : SliceModel.slice) (created : option Z) : res hbucket :=
  let! b := bucket_now now (SliceModel.contents h fs) created in
  Ok (HBucket (bu_im b) fs (files_map (SliceModel.contents h fs))).
(** bucket.go:42-49: Hash and Files, which gives out the slice *)
Definition hbucket_seen (h : SliceModel.arrays bfile) (b : hbucket) : bucket := Bucket (hu_im b) (SliceModel.contents h (hu_files b)).
(** bucket.go:52-59 FileByPath *)
Definition file_by_path (b : hbucket) (path : bytes) : res bfile :=
  match mget (hu_map b) path with Some f => Ok f | None => Err end.

(** domain/memory/buckets/files/file.go:13-18 *)
Record hfile := HFile { hf_im : immutable; hf_path : bytes; hf_chunks : SliceModel.slice; hf_map : gomap chunk }.
(** files/builder.go:59-96 Now *)
Definition hfile_now (h : SliceModel.arrays chunk) (now : Z) (path : bytes) (cs : SliceModel.slice) (created : option Z) : res hfile :=
  let! f := bfile_now now path (SliceModel.contents h cs) created in
  Ok (HFile (bf_im f) (bf_path f) cs (chunks_map (SliceModel.contents h cs))).
(** file.go:37-49: Hash, RelativePath and Chunks *)
Definition hfile_seen (h : SliceModel.arrays chunk) (f : hfile) : bfile := BFile (hf_im f) (hf_path f) (SliceModel.contents h (hf_chunks f)).
(** file.go:52-60 ChunkByHash *)
Definition chunk_by_hash (f : hfile) (hsh : hash) : res chunk :=
  match mget (hf_map f) (hash_string hsh) with Some c => Ok c | None => Err end.
