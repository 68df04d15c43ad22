(** Properties of the parts that buckets and files look for (C113). *)
From Verif Require Import Base HashModel HashSpec EntitiesModel BucketModel BucketSpec IndexModel IndexSpec IndexProofs Properties_Bucket.
From Verif Require SliceModel.
Import SliceModel (arrays, slice, contents, assign, Slice).

(** FileByPath returns the last file with the path, and an error if there is none. *)
Theorem C113_path : forall h now fs created b p, hbucket_now h now fs created = Ok b ->
  (forall f, file_by_path b p = Ok f <-> last_with bf_path p f (contents h fs)) /\
  (file_by_path b p = Err <-> ~ In p (map bf_path (contents h fs))) /\ file_by_path b p <> Panic.
Proof. intros. split; [intro; eapply path_found; eassumption|]. eapply path_missing; eassumption. Qed.
Print Assumptions C113_path.
(** ChunkByHash returns the last chunk with the hash, and an error if there is none. *)
Theorem C113_hash : forall h now p cs created f k, hfile_now h now p cs created = Ok f ->
  (forall c, chunk_by_hash f k = Ok c <-> last_with ck_hash k c (contents h cs)) /\
  (chunk_by_hash f k = Err <-> ~ In k (map ck_hash (contents h cs))) /\ chunk_by_hash f k <> Panic.
Proof. intros. split; [intro; eapply hash_found; eassumption|]. eapply hash_missing; eassumption. Qed.
Print Assumptions C113_hash.
(** For every chunk of a file one with the same size and data is found. *)
Theorem C113_every_chunk : forall h now p cs created f, hfile_now h now p cs created = Ok f -> Forall built_chunk (contents h cs) ->
  forall c, In c (contents h cs) -> exists c', chunk_by_hash f (ck_hash c) = Ok c' /\ In c' (contents h cs) /\
    ((ck_size c' = ck_size c /\ ck_data c' = ck_data c) \/ sha_collision (chunk_text c') (chunk_text c)).
Proof. exact chunk_like. Qed.
Print Assumptions C113_every_chunk.
(** In the bucket of a folder every file of the folder is found under its path, and nothing else. *)
Theorem C113_folder_partial : forall wild clock size es h fs now created b, (0 < size < 2 ^ 64)%N -> proper (Dir (Some es)) -> files_below_limit (Dir (Some es)) ->
  dir_files wild clock size (Dir (Some es)) (s2b ".") = Ok (contents h fs) -> hbucket_now h now fs created = Ok b ->
  (forall names data, holds_file (Dir (Some es)) names (Some data) ->
     exists f, file_by_path b (path_text names) = Ok f /\ describes (N.to_nat size) (path_text names) data f) /\
  (forall p f, file_by_path b p = Ok f ->
     exists names data, p = path_text names /\ holds_file (Dir (Some es)) names (Some data) /\ describes (N.to_nat size) p data f).
Proof. exact folder_found. Qed.
Print Assumptions C113_folder_partial.
(** A bucket is built of files with the same path, and the earlier ones are not found at all. *)
Theorem C113_refuted : forall h now fs created before f mid g after, contents h fs = before ++ f :: mid ++ g :: after ->
  bf_path f = bf_path g -> ~ In f mid -> ~ In f (g :: after) -> ~ In f before ->
  exists b, hbucket_now h now fs created = Ok b /\ In f (bu_files (hbucket_seen h b)) /\ forall p, file_by_path b p <> Ok f.
Proof. exact shadowed. Qed.
Print Assumptions C113_refuted.
(** Who writes to the slice that Files gives out changes what Files shows, and not what is found. *)
Theorem C113_refuted_changed : forall h now fs created b i g old, hbucket_now h now fs created = Ok b -> nth_error (contents h fs) i = Some old ->
  NoDup (map bf_path (contents h fs)) -> ~ In (bf_path g) (map bf_path (contents h fs)) ->
  let h' := assign h (hu_files b) i g in
  bu_hash (hbucket_seen h' b) = bu_hash (hbucket_seen h b) /\ nth_error (bu_files (hbucket_seen h' b)) i = Some g /\ file_by_path b (bf_path g) = Err /\
  ~ In old (bu_files (hbucket_seen h' b)) /\ file_by_path b (bf_path old) = Ok old.
Proof. exact changed. Qed.
Print Assumptions C113_refuted_changed.

(** two files under one path, and a chunk given twice, with different times *)
Definition fl_c : bfile := BFile (Immutable (from_multi (s2b "c" :: map ck_hash [ck_a])) 9) (s2b "c") [ck_a].
Definition ck_later : chunk := Chunk (Immutable (ck_hash ck_a) 6) 3 (ck_data ck_a).
Definition three_files : arrays bfile := fun _ => [fl_ab; fl_b; fl_c].
Definition three_chunks : arrays chunk := fun _ => [ck_a; ck_b; ck_later].
Example C113_case : exists b f,
  hbucket_now three_files 3 (Slice 0 0 3) None = Ok b /\ hfile_now three_chunks 3 (s2b "x") (Slice 0 0 3) None = Ok f /\
  file_by_path b (s2b "a/b") = Ok fl_ab /\ file_by_path b (s2b "c") = Ok fl_c /\ file_by_path b (s2b "d") = Err /\
  fl_b <> fl_c /\ bf_path fl_b = bf_path fl_c /\
  last_with ck_hash (ck_hash ck_a) ck_later (contents three_chunks (Slice 0 0 3)) /\ ck_a <> ck_later.
Proof.
  destruct (hbucket_some three_files 3 (Slice 0 0 3) None) as (b & B); [discriminate|].
  destruct (hfile_some three_chunks 3 (s2b "x") (Slice 0 0 3) None) as (f & F); [discriminate..|].
  exists b, f. split; [exact B|]. split; [exact F|]. pose proof (C113_path _ _ _ _ _ (s2b "a/b") B) as (P1 & _). pose proof (C113_path _ _ _ _ _ (s2b "c") B) as (P2 & _).
  pose proof (C113_path _ _ _ _ _ (s2b "d") B) as (_ & P3 & _).
  split; [apply P1; exists [], [fl_b; fl_c]; split; [reflexivity|split; [reflexivity|cbn; intros [Q|[Q|[]]]; discriminate Q]]|].
  split; [apply P2; exists [fl_ab; fl_b], []; split; [reflexivity|split; [reflexivity|intros []]]|].
  split; [apply P3; cbn; intros [Q|[Q|[Q|[]]]]; discriminate Q|].
  split; [intro Q; apply (f_equal (fun f => im_created (bf_im f))) in Q; cbn in Q; discriminate Q|]. split; [reflexivity|].
  split; [exists [ck_a; ck_b], []; split; [reflexivity|split; [reflexivity|intros []]]|].
  intro Q; apply (f_equal (fun c => im_created (ck_im c))) in Q; cbn in Q; discriminate Q.
Qed.
