(** Proofs for IndexModel.v. *)
From Coq Require Import Lia ZifyBool ZifyNat ZifyN.
From Verif Require Import Base BaseFacts HashModel HashSpec HashProofs EntitiesModel BucketModel BucketSpec BucketProofs BucketMore IndexModel IndexSpec.
From Verif Require SliceModel SliceProofs.
Import SliceModel (arrays, slice, contents, assign).

Section Fold.
Context {A : Type} (key : A -> bytes).
Lemma fold_snoc : forall (l : list A) x m, fold_left (fun m f => mput m (key f) f) (l ++ [x]) m = mput (fold_left (fun m f => mput m (key f) f) l m) (key x) x.
Proof. intros. rewrite fold_left_app. reflexivity. Qed.
Lemma map_found : forall l k x, mget (fold_left (fun m f => mput m (key f) f) l []) k = Some x <-> last_with key k x l.
Proof.
  intros l k x. induction l as [|y l IH] using rev_ind.
  - cbn [fold_left mget]. split; [discriminate|]. intros (b & a & E & _). destruct b; discriminate E.
  - rewrite fold_snoc. cbn [mput mget]. destruct (bseq (key y) k) eqn:B.
    + apply bseq_eq in B. split.
      * intro H. injection H as <-. exists l, []. split; [reflexivity|]. split; [exact B|intros []].
      * intros (b & a & E & K & N). destruct a as [|z a] using rev_ind.
        -- apply app_inj_tail in E as [_ E]. congruence.
        -- clear IHa. rewrite app_comm_cons, app_assoc in E. apply app_inj_tail in E as [_ <-]. destruct N. rewrite map_app. apply in_or_app. right. left. exact B.
    + apply bseq_neq in B. rewrite IH. split.
      * intros (b & a & E & K & N). exists b, (a ++ [y]). split; [rewrite E, <- app_assoc; reflexivity|]. split; [exact K|].
        rewrite map_app. intro I. apply in_app_or in I as [I|[I|[]]]; contradiction.
      * intros (b & a & E & K & N). destruct a as [|z a] using rev_ind.
        -- apply app_inj_tail in E as [_ E]. subst y. contradiction.
        -- clear IHa. rewrite app_comm_cons, app_assoc in E. apply app_inj_tail in E as [E _]. exists b, a. split; [exact E|]. split; [exact K|].
           intro I. apply N. rewrite map_app. apply in_or_app. left. exact I.
Qed.
Lemma map_missing : forall l k, mget (fold_left (fun m f => mput m (key f) f) l []) k = None <-> ~ In k (map key l).
Proof.
  intros l k. induction l as [|y l IH] using rev_ind; [split; [intros _ []|reflexivity]|].
  rewrite fold_snoc, map_app. cbn [mput mget map]. destruct (bseq (key y) k) eqn:B.
  - apply bseq_eq in B. split; [discriminate|]. intro N. destruct N. apply in_or_app. right. left. exact B.
  - apply bseq_neq in B. rewrite IH. split; intros N I; [apply in_app_or in I as [I|[I|[]]]; contradiction|apply N, in_or_app; left; exact I].
Qed.
End Fold.

Lemma last_with_nodup : forall {A K} (key : A -> K) x l, NoDup (map key l) -> In x l -> last_with key (key x) x l.
Proof.
  intros A K key x l N I. apply in_split in I as (b & a & ->). exists b, a. split; [reflexivity|]. split; [reflexivity|].
  rewrite map_app in N. cbn [map] in N. apply NoDup_remove_2 in N. intro I. apply N. apply in_or_app. right. exact I.
Qed.
Lemma last_with_in : forall {A K} (key : A -> K) k x l, last_with key k x l -> In x l /\ key x = k.
Proof. intros A K key k x l (b & a & -> & E & _). split; [apply in_or_app; right; left; reflexivity|exact E]. Qed.

Lemma bucket_now_some : forall now fs created, fs <> [] -> exists b, bucket_now now fs created = Ok b.
Proof. intros. eexists. apply bucket_now_iff. split; [assumption|reflexivity]. Qed.
Lemma hbucket_some : forall h now fs created, contents h fs <> [] -> exists b, hbucket_now h now fs created = Ok b.
Proof. intros h now fs created N. destruct (bucket_now_some now _ created N) as (b & E). unfold hbucket_now. rewrite E. eexists. reflexivity. Qed.
Lemma hfile_some : forall h now p cs created, p <> [] -> contents h cs <> [] -> exists f, hfile_now h now p cs created = Ok f.
Proof.
  intros h now p cs created P N. unfold hfile_now. destruct (bfile_now now p (contents h cs) created) as [f| |] eqn:E; [eexists; reflexivity|exfalso..].
  all: assert (X : exists f, bfile_now now p (contents h cs) created = Ok f) by (eexists; apply bfile_now_iff; repeat split; assumption); destruct X as (f & X); congruence.
Qed.
Lemma hbucket_built : forall h now fs created b, hbucket_now h now fs created = Ok b ->
  bucket_now now (contents h fs) created = Ok (hbucket_seen h b) /\ hu_files b = fs /\ hu_map b = files_map (contents h fs).
Proof.
  intros h now fs created b H. unfold hbucket_now in H. destruct (bucket_now now (contents h fs) created) as [x| |] eqn:E; cbn [rbind] in H; try discriminate H.
  injection H as <-. apply bucket_now_iff in E as (_ & ->). auto.
Qed.
Lemma hfile_built : forall h now p cs created f, hfile_now h now p cs created = Ok f ->
  bfile_now now p (contents h cs) created = Ok (hfile_seen h f) /\ hf_chunks f = cs /\ hf_map f = chunks_map (contents h cs).
Proof.
  intros h now p cs created f H. unfold hfile_now in H. destruct (bfile_now now p (contents h cs) created) as [x| |] eqn:E; cbn [rbind] in H; try discriminate H.
  injection H as <-. apply bfile_now_iff in E as (_ & _ & ->). auto.
Qed.

Lemma path_found : forall h now fs created b p f, hbucket_now h now fs created = Ok b ->
  (file_by_path b p = Ok f <-> last_with bf_path p f (contents h fs)).
Proof.
  intros h now fs created b p f H. apply hbucket_built in H as (_ & _ & M). unfold file_by_path. rewrite M. rewrite <- map_found. fold (files_map (contents h fs)).
  destruct (mget _ p); split; intro X; try discriminate X; injection X as ->; reflexivity.
Qed.
Lemma path_missing : forall h now fs created b p, hbucket_now h now fs created = Ok b ->
  (file_by_path b p = Err <-> ~ In p (map bf_path (contents h fs))) /\ file_by_path b p <> Panic.
Proof.
  intros h now fs created b p H. apply hbucket_built in H as (_ & _ & M). unfold file_by_path. rewrite M. rewrite <- map_missing. fold (files_map (contents h fs)).
  destruct (mget _ p); (split; [split|]); intro X; try discriminate X; reflexivity.
Qed.
Lemma hash_found : forall h now p cs created f k c, hfile_now h now p cs created = Ok f ->
  (chunk_by_hash f k = Ok c <-> last_with ck_hash k c (contents h cs)).
Proof.
  intros h now p cs created f k c H. apply hfile_built in H as (_ & _ & M). unfold chunk_by_hash. rewrite M.
  assert (X : mget (chunks_map (contents h cs)) (hash_string k) = Some c <-> last_with ck_hash k c (contents h cs)).
  { unfold chunks_map. rewrite (map_found (fun c => hash_string (ck_hash c))). split; intros (b & a & E & K & N); exists b, a; (split; [exact E|]).
    - split; [apply hash_string_inj; exact K|]. intro I. apply N. rewrite <- (map_map ck_hash hash_string). apply in_map. exact I.
    - split; [congruence|]. intro I. apply N. apply in_map_iff in I as (x & Q & I). apply hash_string_inj in Q. rewrite <- Q. apply in_map. exact I. }
  rewrite <- X. destruct (mget _ _); split; intro Y; try discriminate Y; injection Y as ->; reflexivity.
Qed.
Lemma hash_missing : forall h now p cs created f k, hfile_now h now p cs created = Ok f ->
  (chunk_by_hash f k = Err <-> ~ In k (map ck_hash (contents h cs))) /\ chunk_by_hash f k <> Panic.
Proof.
  intros h now p cs created f k H. apply hfile_built in H as (_ & _ & M). unfold chunk_by_hash. rewrite M.
  assert (X : mget (chunks_map (contents h cs)) (hash_string k) = None <-> ~ In k (map ck_hash (contents h cs))).
  { unfold chunks_map. rewrite (map_missing (fun c => hash_string (ck_hash c))). split; intros N I; apply N.
    - rewrite <- (map_map ck_hash hash_string). apply in_map. exact I.
    - apply in_map_iff in I as (x & Q & I). apply hash_string_inj in Q. rewrite <- Q. apply in_map. exact I. }
  rewrite <- X. destruct (mget _ _); (split; [split|]); intro Y; try discriminate Y; reflexivity.
Qed.

(** in a bucket made of a folder all files are found *)
Lemma folder_found : forall wild clock size es h fs now created b, (0 < size < 2 ^ 64)%N -> proper (Dir (Some es)) -> small (Dir (Some es)) ->
  dir_files wild clock size (Dir (Some es)) (s2b ".") = Ok (contents h fs) -> hbucket_now h now fs created = Ok b ->
  (forall names data, holds_file (Dir (Some es)) names (Some data) ->
     exists f, file_by_path b (path_text names) = Ok f /\ describes (N.to_nat size) (path_text names) data f) /\
  (forall p f, file_by_path b p = Ok f ->
     exists names data, p = path_text names /\ holds_file (Dir (Some es)) names (Some data) /\ describes (N.to_nat size) p data f).
Proof.
  intros wild clock size es h fs now created b S P L D B. destruct (folder_ok wild clock size es _ S P L D) as (F1 & F2 & N). split.
  - intros names data H. destruct (F2 _ _ H) as (d & f & E & I & Ds). injection E as <-. exists f. split; [|exact Ds].
    apply (path_found _ _ _ _ _ _ _ B). pose proof Ds as (<- & _). apply last_with_nodup; assumption.
  - intros p f H. apply (path_found _ _ _ _ _ _ _ B) in H. apply last_with_in in H as (I & E). destruct (F1 f I) as (names & data & H & Ds).
    pose proof Ds as (E' & _). exists names, data. split; [congruence|]. split; [exact H|]. rewrite <- E, E'. exact Ds.
Qed.

(** a file is not found if a later one has its path *)
Lemma shadowed : forall h now fs created before f mid g after, contents h fs = before ++ f :: mid ++ g :: after ->
  bf_path f = bf_path g -> ~ In f mid -> ~ In f (g :: after) -> ~ In f before ->
  exists b, hbucket_now h now fs created = Ok b /\ In f (bu_files (hbucket_seen h b)) /\ forall p, file_by_path b p <> Ok f.
Proof.
  intros h now fs created before f mid g after E P N1 N2 N3. unfold hbucket_now.
  destruct (bucket_now now (contents h fs) created) as [x| |] eqn:B.
  - cbn [rbind]. eexists. split; [reflexivity|]. split; [cbn [hbucket_seen bu_files hu_files]; rewrite E; apply in_or_app; right; left; reflexivity|].
    intros p H. assert (B' : hbucket_now h now fs created = Ok (HBucket (bu_im x) fs (files_map (contents h fs)))) by (unfold hbucket_now; rewrite B; reflexivity).
    apply (path_found _ _ _ _ _ _ _ B') in H as (b & a & E' & K & N). apply N.
    rewrite E in E'. assert (Q : before = b /\ mid ++ g :: after = a).
    { clear - E' N1 N2 N3. revert b E'. induction before as [|z l IH]; intros [|y b] E'; cbn [app] in E'.
      - injection E' as <-. auto.
      - exfalso. injection E' as <- E'. assert (I : In f (mid ++ g :: after)) by (rewrite E'; apply in_or_app; right; left; reflexivity).
        apply in_app_or in I as [I|I]; contradiction.
      - exfalso. injection E' as -> _. apply N3. left. reflexivity.
      - injection E' as <- E'. destruct (IH (fun I => N3 (or_intror I)) b E') as [-> ->]. auto. }
    destruct Q as [_ <-]. rewrite map_app. apply in_or_app. right. left. congruence.
  - exfalso. destruct (bucket_now_some now (contents h fs) created) as (x & X); [rewrite E; destruct before; discriminate|congruence].
  - exfalso. destruct (bucket_now_some now (contents h fs) created) as (x & X); [rewrite E; destruct before; discriminate|congruence].
Qed.

(** what the caller writes into the slice is shown, but not found *)
Lemma changed : forall h now fs created b i g old, hbucket_now h now fs created = Ok b -> nth_error (contents h fs) i = Some old ->
  NoDup (map bf_path (contents h fs)) -> ~ In (bf_path g) (map bf_path (contents h fs)) ->
  let h' := assign h (hu_files b) i g in
  bu_hash (hbucket_seen h' b) = bu_hash (hbucket_seen h b) /\ nth_error (bu_files (hbucket_seen h' b)) i = Some g /\ file_by_path b (bf_path g) = Err /\
  ~ In old (bu_files (hbucket_seen h' b)) /\ file_by_path b (bf_path old) = Ok old.
Proof.
  intros h now fs created b i g old B O N G h'. pose proof (hbucket_built _ _ _ _ _ B) as (_ & F & _).
  assert (C : contents h' fs = SliceModel.put_at i g (contents h fs)) by (unfold h'; rewrite F; apply SliceProofs.assign_contents).
  assert (L : i < length (contents h fs)) by (apply nth_error_Some; congruence).
  split; [reflexivity|]. cbn [hbucket_seen bu_files]. rewrite F, C. split; [apply SliceProofs.put_at_nth; exact L|].
  split; [apply (path_missing _ _ _ _ _ _ B); exact G|]. split.
  - intro I. apply In_nth_error in I as (j & J). destruct (Nat.eq_dec i j) as [<-|Ne].
    + rewrite SliceProofs.put_at_nth in J by exact L. injection J as ->. apply G. apply in_map. apply nth_error_In in O. exact O.
    + rewrite SliceProofs.put_at_other in J by exact Ne. apply Ne.
      apply (NoDup_nth_error (map bf_path (contents h fs))); [exact N|rewrite map_length; exact L|].
      rewrite (map_nth_error _ _ _ O), (map_nth_error _ _ _ J). reflexivity.
  - apply (path_found _ _ _ _ _ _ _ B). apply last_with_nodup; [exact N|]. apply nth_error_In in O. exact O.
Qed.

(** the chunk found has the content of every chunk with the hash *)
Lemma chunk_like : forall h now p cs created f, hfile_now h now p cs created = Ok f -> Forall built_chunk (contents h cs) ->
  forall c, In c (contents h cs) -> exists c', chunk_by_hash f (ck_hash c) = Ok c' /\ In c' (contents h cs) /\
    ((ck_size c' = ck_size c /\ ck_data c' = ck_data c) \/ sha_collision (chunk_text c') (chunk_text c)).
Proof.
  intros h now p cs created f H Bs c I. destruct (chunk_by_hash f (ck_hash c)) as [c'| |] eqn:E.
  - apply (hash_found _ _ _ _ _ _ _ _ H) in E. apply last_with_in in E as (I' & E). exists c'. split; [reflexivity|]. split; [exact I'|].
    rewrite Forall_forall in Bs. apply chunk_commits; auto.
  - apply (hash_missing _ _ _ _ _ _ _ H) in E. destruct E. apply in_map. exact I.
  - destruct (proj2 (hash_missing _ _ _ _ _ _ (ck_hash c) H) E).
Qed.
