(** Model of libs/file: stores on a file system, the encrypted variant and the
    in-memory store used by tests.

    The operating system is a finite map from absolute cleaned paths (lists of
    components) to nodes.  Not modelled: permissions, symbolic links, disk
    full, concurrent processes.  The base path is absolute. *)
From Verif Require Import Base CfbModel.

Notation path := (list bytes).

Inductive node : Type :=
| Dir
| File (content : bytes).

Notation fs := (list (path * node)).

Fixpoint patheq (a b : path) : bool :=
  match a, b with
  | [], [] => true
  | x :: a, y :: b => bseq x y && patheq a b
  | _, _ => false
  end.

(** [filepath.Clean] on the components of an absolute path: empty components and
    "." are dropped, ".." removes the previous component (at the root nothing). *)
Definition clean_step (acc : path) (c : bytes) : path :=
  match c with
  | [] => acc
  | _ => if bseq c [x2e] then acc
         else if bseq c [x2e; x2e] then removelast acc
         else acc ++ [c]
  end.
Definition clean (p : path) : path := fold_left clean_step p [].

(** [filepath.Join(basePath, relativePath)] *)
Definition fpath (base rel : bytes) : path := clean (split x2f base ++ split x2f rel).

(** The root directory always exists. *)
Definition fget (d : fs) (p : path) : option node :=
  match p with [] => Some Dir | _ => aget patheq p d end.

Definition is_dir (d : fs) (p : path) : bool :=
  match fget d p with Some Dir => true | _ => false end.

(** All proper ancestors of [p] are directories (otherwise a lookup of [p] fails
    with ENOENT or ENOTDIR). *)
Fixpoint ancestors_from (pre p : path) : list path :=
  match p with
  | [] => []
  | c :: p => pre :: ancestors_from (pre ++ [c]) p
  end.
Definition ancestors (p : path) : list path := ancestors_from [] p.

(** [os.Stat]: the node, if all ancestors are directories *)
Definition stat (d : fs) (p : path) : option node :=
  if forallb (is_dir d) (ancestors p) then fget d p else None.

(** [os.IsNotExist(err)] of [os.Stat]: true when a component is missing, false
    when an ancestor is a file (ENOTDIR). *)
Definition stat_notexist (d : fs) (p : path) : bool :=
  match stat d p with
  | Some _ => false
  | None =>
      (* the first ancestor which is not a directory decides the error *)
      match find (fun a => negb (is_dir d a)) (ancestors p) with
      | Some a => match fget d a with Some (File _) => false | _ => true end
      | None => true
      end
  end.

(** [os.MkdirAll(p)]: creates the missing directories from the root on, stops
    with an error at a file.  The error is ignored by the caller. *)
Fixpoint mkdirs (d : fs) (ps : list path) : fs :=
  match ps with
  | [] => d
  | p :: ps =>
      match fget d p with
      | Some Dir => mkdirs d ps
      | Some (File _) => d
      | None => mkdirs (aput p Dir d) ps
      end
  end.
(** the directories of [p] itself and its ancestors, root first *)
Definition mkdir_all (d : fs) (p : path) : fs := mkdirs d (ancestors p ++ [p]).

(** [ioutil.WriteFile]: open with O_CREATE|O_TRUNC, write *)
Definition write_file (d : fs) (p : path) (c : bytes) : res fs :=
  if forallb (is_dir d) (ancestors p) then
    match fget d p with
    | Some Dir => Err
    | _ => Ok (aput p (File c) d)
    end
  else Err.

Definition dirname (p : path) : path := removelast p.

(** A service call returns the new disk and whether it failed (the disk may have
    changed even when it fails). *)
Definition outcome : Type := fs * bool.

(** libs/file/file_disk_service.go:24-32 Save *)
Definition save (base : bytes) (d : fs) (rel content : bytes) : outcome :=
  let p := fpath base rel in
  let d := if stat_notexist d p then mkdir_all d (dirname p) else d in
  match write_file d p content with
  | Ok d => (d, true)
  | _ => (d, false)
  end.

Definition has_child (d : fs) (p : path) : bool :=
  existsb (fun e => patheq (removelast (fst e)) p && negb (patheq (fst e) [])
                    && match fget d (fst e) with Some _ => true | None => false end) d.

(** [os.Remove]: a file, or an empty directory *)
Definition remove (d : fs) (p : path) : res fs :=
  match stat d p with
  | None => Err
  | Some (File _) => Ok (adel patheq p d)
  | Some Dir => match p with
                | [] => Err
                | _ => if has_child d p then Err else Ok (adel patheq p d)
                end
  end.

(** libs/file/file_disk_service.go:35-43 Delete *)
Definition delete (base : bytes) (d : fs) (rel : bytes) : outcome :=
  let p := fpath base rel in
  if stat_notexist d p then (d, false)
  else match remove d p with Ok d => (d, true) | _ => (d, false) end.

(** libs/file/file_disk_service.go:46-55 DeleteAll: stops at the first error *)
Fixpoint delete_all (base : bytes) (d : fs) (rels : list bytes) : outcome :=
  match rels with
  | [] => (d, true)
  | r :: rels =>
      let '(d', ok) := delete base d r in
      if ok then delete_all base d' rels else (d', false)
  end.

(** libs/file/file_disk_repository.go:21-29 Retrieve ([ioutil.ReadFile] fails on a directory) *)
Definition retrieve (base : bytes) (d : fs) (rel : bytes) : res bytes :=
  match stat d (fpath base rel) with
  | Some (File c) => Ok c
  | _ => Err
  end.

(** ** Encrypted store *)
Section Encrypted.
  Variable H256 : bytes -> bytes.
  Variable AES : bytes -> bytes -> bytes.

  (** libs/file/encrypted_file_disk_service.go:22-29 Save *)
  Definition enc_save (pw base : bytes) (d : fs) (iv rel content : bytes) : outcome :=
    save base d rel (encrypt H256 AES pw iv content).

  (** libs/file/encrypted_file_disk_service.go:32-39 Delete, DeleteAll *)
  Definition enc_delete (base : bytes) := delete base.
  Definition enc_delete_all (base : bytes) := delete_all base.

  (** libs/file/encrypted_file_disk_repository.go:22-29 Retrieve *)
  Definition enc_retrieve (pw base : bytes) (d : fs) (rel : bytes) : res bytes :=
    let! t := retrieve base d rel in decrypt H256 AES pw t.
End Encrypted.

(** ** Store for tests: libs/file/repository_service_tests.go *)
Notation tstore := (list (bytes * bytes)).

(** repository_service_tests.go:24-31 *)
Definition t_retrieve (d : tstore) (rel : bytes) : res bytes :=
  match aget bseq rel d with Some c => Ok c | None => Err end.
(** repository_service_tests.go:56-59 *)
Definition t_save (d : tstore) (rel content : bytes) : tstore * bool := (aput rel content d, true).
(** repository_service_tests.go:62-70 *)
Definition t_delete (d : tstore) (rel : bytes) : tstore * bool :=
  match aget bseq rel d with
  | Some _ => (adel bseq rel d, true)
  | None => (d, false)
  end.
(** repository_service_tests.go:73-82 *)
Fixpoint t_delete_all (d : tstore) (rels : list bytes) : tstore * bool :=
  match rels with
  | [] => (d, true)
  | r :: rels =>
      let '(d', ok) := t_delete d r in
      if ok then t_delete_all d' rels else (d', false)
  end.
