(** What "a file store behaves like a map" means. *)
From Verif Require Import Base FileModel.

(** Calls on a store. *)
Inductive file_op : Type :=
| OSave (rel content : bytes)
| ODelete (rel : bytes)
| ODeleteAll (rels : list bytes).

(** What the caller observes: each single save or delete that was attempted, with
    its success flag. *)
Inductive file_event : Type :=
| EvSave (rel content : bytes) (ok : bool)
| EvDelete (rel : bytes) (ok : bool).

(** The content that a map would hold at each path after the observed events.
    [key] says which names denote the same path. *)
Definition map_event {K} (keq : K -> K -> bool) (key : bytes -> K)
    (m : K -> option bytes) (e : file_event) : K -> option bytes :=
  match e with
  | EvSave rel c true => fun k => if keq k (key rel) then Some c else m k
  | EvDelete rel true => fun k => if keq k (key rel) then None else m k
  | _ => m
  end.
Definition map_after {K} (keq : K -> K -> bool) (key : bytes -> K)
    (m : K -> option bytes) (evs : list file_event) : K -> option bytes :=
  fold_left (map_event keq key) evs m.

Definition as_result (o : option bytes) : res bytes :=
  match o with Some c => Ok c | None => Err end.

(** Running calls on the disk store; DeleteAll attempts the deletions in order and
    stops at the first failure. *)
Fixpoint run_deletes (base : bytes) (d : fs) (rels : list bytes) : fs * list file_event :=
  match rels with
  | [] => (d, [])
  | r :: rels =>
      let '(d', ok) := delete base d r in
      if ok then let '(d'', evs) := run_deletes base d' rels in (d'', EvDelete r true :: evs)
      else (d', [EvDelete r false])
  end.
Definition run_op (base : bytes) (d : fs) (o : file_op) : fs * list file_event :=
  match o with
  | OSave r c => let '(d', ok) := save base d r c in (d', [EvSave r c ok])
  | ODelete r => let '(d', ok) := delete base d r in (d', [EvDelete r ok])
  | ODeleteAll rs => run_deletes base d rs
  end.
Fixpoint run_ops (base : bytes) (d : fs) (os : list file_op) : fs * list file_event :=
  match os with
  | [] => (d, [])
  | o :: os =>
      let '(d', e1) := run_op base d o in
      let '(d'', e2) := run_ops base d' os in
      (d'', e1 ++ e2)
  end.

(** The same for the store for tests. *)
Fixpoint t_run_deletes (d : tstore) (rels : list bytes) : tstore * list file_event :=
  match rels with
  | [] => (d, [])
  | r :: rels =>
      let '(d', ok) := t_delete d r in
      if ok then let '(d'', evs) := t_run_deletes d' rels in (d'', EvDelete r true :: evs)
      else (d', [EvDelete r false])
  end.
Definition t_run_op (d : tstore) (o : file_op) : tstore * list file_event :=
  match o with
  | OSave r c => let '(d', ok) := t_save d r c in (d', [EvSave r c ok])
  | ODelete r => let '(d', ok) := t_delete d r in (d', [EvDelete r ok])
  | ODeleteAll rs => t_run_deletes d rs
  end.
Fixpoint t_run_ops (d : tstore) (os : list file_op) : tstore * list file_event :=
  match os with
  | [] => (d, [])
  | o :: os =>
      let '(d', e1) := t_run_op d o in
      let '(d'', e2) := t_run_ops d' os in
      (d'', e1 ++ e2)
  end.

(** A consistent file system: whatever exists lies in existing directories. *)
Definition consistent_fs (d : fs) : Prop :=
  forall p n, fget d p = Some n -> Forall (fun a => fget d a = Some Dir) (ancestors p).

(** The content stored at a path. *)
Definition content_at (d : fs) (p : path) : option bytes :=
  match fget d p with Some (File c) => Some c | _ => None end.

(** A name that is one path component. *)
Definition flat_name (n : bytes) : Prop :=
  n <> [] /\ ~ In x2f n /\ n <> [x2e] /\ n <> [x2e; x2e].

(** Calls on the encrypted store; each carries the IV drawn by a Save. *)
Section Enc.
  Variable H256 : bytes -> bytes.
  Variable AES : bytes -> bytes -> bytes.
  Definition enc_run_op (pw base : bytes) (d : fs) (o : file_op * bytes) : fs * list file_event :=
    match o with
    | (OSave r c, iv) => let '(d', ok) := enc_save H256 AES pw base d iv r c in (d', [EvSave r c ok])
    | (ODelete r, _) => let '(d', ok) := enc_delete base d r in (d', [EvDelete r ok])
    | (ODeleteAll rs, _) => run_deletes base d rs
    end.
  Fixpoint enc_run_ops (pw base : bytes) (d : fs) (os : list (file_op * bytes)) : fs * list file_event :=
    match os with
    | [] => (d, [])
    | o :: os =>
        let '(d', e1) := enc_run_op pw base d o in
        let '(d'', e2) := enc_run_ops pw base d' os in
        (d'', e1 ++ e2)
    end.
End Enc.
