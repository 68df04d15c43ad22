(** Proofs about folders and the stores of buckets. *)
From Coq Require Import SpecFloat Lia ZifyBool ZifyNat ZifyN.
From Verif Require Import Base BaseFacts Sha512 HashModel HashSpec HashProofs HashTreeModel HashTreeProofs EntitiesModel FloatModel FloatFacts
  JsonModel FileModel StoreModel BucketModel BucketSpec BucketProofs.

Lemma hash_string_inj : forall a b, hash_string a = hash_string b -> a = b.
Proof. exact hex_encode_inj. Qed.

(** ** Folders *)
Section EntryInd.
Variables (P : entry -> Prop) (Hf : forall c, P (File c)) (Hn : P (Dir None))
  (Hd : forall es, Forall (fun p => P (snd p)) es -> P (Dir (Some es))).
Fixpoint entry_rect' (e : entry) : P e :=
  match e with
  | File c => Hf c
  | Dir None => Hn
  | Dir (Some es) =>
      Hd es ((fix go (es : list (bytes * entry)) : Forall (fun p => P (snd p)) es :=
                match es with
                | [] => Forall_nil _
                | p :: es => Forall_cons p (entry_rect' (snd p)) (go es)
                end) es)
  end.
End EntryInd.

Lemma dir_files_dir : forall wild clock size es path,
  dir_files wild clock size (Dir (Some es)) path =
  rmap (@concat _) (rmapM (fun ne => dir_files wild clock size (snd ne) (sub_path path (fst ne))) es).
Proof.
  intros wild clock size es path. cbn [dir_files]. induction es as [|[n e] es IH]; [reflexivity|].
  cbn [rmapM fst snd]. destruct (dir_files wild clock size e (sub_path path n)) as [fs| |]; cbn [rbind rmap]; try reflexivity.
  rewrite IH. destruct (rmapM _ es); reflexivity.
Qed.
Lemma rmapM_ok : forall A B (f : A -> res B) l r, rmapM f l = Ok r -> Forall2 (fun a b => f a = Ok b) l r.
Proof.
  induction l as [|a l IH]; intros r H; cbn [rmapM] in H; [injection H as <-; constructor|].
  destruct (f a) eqn:E; cbn [rbind] in H; try discriminate. destruct (rmapM f l) eqn:E2; cbn [rbind] in H; try discriminate.
  injection H as <-. constructor; [exact E|]. apply IH. reflexivity.
Qed.
Lemma rmapM_total : forall A B (f : A -> res B) l, (forall a, In a l -> exists b, f a = Ok b) -> exists r, rmapM f l = Ok r.
Proof.
  induction l as [|a l IH]; intros H; [exists []; reflexivity|]. destruct (H a (or_introl eq_refl)) as [b Eb].
  destruct IH as [r Er]; [intros; apply H; right; assumption|]. exists (b :: r). cbn [rmapM]. rewrite Eb, Er. reflexivity.
Qed.
Lemma rmapM_err : forall A B (f : A -> res B) l, (forall a, In a l -> f a <> Panic) -> (exists a, In a l /\ f a = Err) -> rmapM f l = Err.
Proof.
  induction l as [|a l IH]; intros H (x & Hx & E); [destruct Hx|]. cbn [rmapM]. destruct (f a) eqn:Ea; cbn [rbind].
  - destruct Hx as [->|Hx]; [congruence|]. rewrite IH; [reflexivity| |exists x; auto]. intros; apply H; right; assumption.
  - reflexivity.
  - exfalso. apply (H a (or_introl eq_refl)). exact Ea.
Qed.
Lemma rmapM_safe : forall A B (f : A -> res B) l, (forall a, In a l -> f a <> Panic) -> rmapM f l <> Panic.
Proof.
  induction l as [|a l IH]; intros H; cbn [rmapM]; [discriminate|]. pose proof (H a (or_introl eq_refl)).
  destruct (f a); cbn [rbind]; try congruence; try discriminate. assert (rmapM f l <> Panic) by (apply IH; intros; apply H; right; assumption).
  destruct (rmapM f l); cbn [rbind]; congruence.
Qed.

Lemma NoDup_app_disjoint : forall A (l l' : list A), NoDup l -> NoDup l' -> (forall a, In a l -> ~ In a l') -> NoDup (l ++ l').
Proof.
  induction l as [|a l IH]; intros l' N1 N2 D; [exact N2|]. inversion N1 as [|? ? Q1 Q2]; subst. cbn [app]. constructor.
  - rewrite in_app_iff. intros [Q|Q]; [contradiction|]. apply (D a (or_introl eq_refl) Q).
  - apply IH; [exact Q2|exact N2|]. intros; apply D; right; assumption.
Qed.

Section Folder.
Variables (wild : float64 -> Z) (clock : bytes -> Z -> Z) (size : N).
Hypothesis Hsize : (0 < size < 2 ^ 64)%N.
Let files := dir_files wild clock size.
Definition full (base : bytes) (names : list bytes) : bytes := fold_left sub_path names base.
Definition small (e : entry) : Prop := forall names data, holds_file e names (Some data) -> (N.of_nat (length data) < 2 ^ 53)%N.
Lemma small_sub : forall es n e, small (Dir (Some es)) -> In (n, e) es -> small e.
Proof. intros es n e H I names data Hf. apply (H (n :: names)). apply HF_dir with e; assumption. Qed.

Lemma dir_file_cases : forall path content, (forall d, content = Some d -> (N.of_nat (length d) < 2 ^ 53)%N) ->
  (dir_file wild (clock path) size path content = Err) \/
  (exists f d, content = Some d /\ dir_file wild (clock path) size path content = Ok f /\ describes (N.to_nat size) path d f).
Proof.
  intros path [d|] H; [|left; reflexivity]. specialize (H d eq_refl).
  destruct (N.lt_ge_cases (N.of_nat (length d)) size) as [L|L].
  - left. apply dir_file_short; lia.
  - destruct path as [|c path].
    + left. unfold dir_file. destruct (chunk_loop _ _ _ _ _ _) as [cs| |] eqn:E; cbn [rbind]; [reflexivity|reflexivity|].
      exfalso. destruct (dir_file_ok wild (clock []) size [x00] d ltac:(lia) ltac:(lia) H ltac:(discriminate)) as (f & Q & _).
      unfold dir_file in Q. rewrite E in Q. discriminate.
    + right. destruct (dir_file_ok wild (clock (c :: path)) size (c :: path) d ltac:(lia) ltac:(lia) H ltac:(discriminate)) as (f & Q & R & _).
      exists f, d. auto.
Qed.
Lemma files_safe : forall e path, small e -> files e path <> Panic.
Proof.
  unfold files. intro e. induction e as [c| |es IH] using entry_rect'; intros path Sm.
  - cbn [dir_files]. destruct (dir_file_cases path c) as [->|(f & d & _ & -> & _)]; try discriminate.
    intros d ->. apply (Sm []). constructor.
  - discriminate.
  - rewrite dir_files_dir. assert (Q : rmapM (fun ne => dir_files wild clock size (snd ne) (sub_path path (fst ne))) es <> Panic).
    { apply rmapM_safe. intros [n e] I. rewrite Forall_forall in IH. apply (IH (n, e) I). apply (small_sub es n); assumption. }
    destruct (rmapM _ es); cbn [rmap]; congruence.
Qed.
(** the files found, with the names leading to them *)
Definition found (base : bytes) (f : bfile) (x : list bytes * bytes) : Prop := describes (N.to_nat size) (full base (fst x)) (snd x) f.
Lemma files_found : forall e base fs, small e -> files e base = Ok fs ->
  exists l, Forall2 (found base) fs l /\ (forall x, In x l <-> holds_file e (fst x) (Some (snd x))) /\
    (forall names, ~ holds_file e names None) /\ ~ unlistable e /\ (proper e -> NoDup (map fst l)).
Proof.
  unfold files. intro e. induction e as [c| |es IH] using entry_rect'; intros base fs Sm H.
  - cbn [dir_files] in H. destruct (dir_file_cases base c) as [E|(f & d & -> & E & D)].
    { intros d ->. apply (Sm []). constructor. }
    { rewrite E in H. discriminate. }
    rewrite E in H. cbn [rbind] in H. injection H as <-. exists [([], d)].
    split; [constructor; [exact D|constructor]|]. split.
    + intros [n x]. cbn [fst snd In]. split; [intros [Q|[]]; injection Q as <- <-; constructor|]. intro Q. inversion Q; subst. left. reflexivity.
    + split; [intros names Q; inversion Q|]. split; [intro Q; inversion Q|]. intros _. constructor; [intros []|constructor].
  - discriminate.
  - rewrite dir_files_dir in H. destruct (rmapM _ es) as [r| |] eqn:E; cbn [rmap] in H; try discriminate. injection H as <-.
    apply rmapM_ok in E. clear files.
    assert (G : exists l, Forall2 (found base) (concat r) l /\
      (forall x, In x l <-> exists n e p, In (n, e) es /\ fst x = n :: p /\ holds_file e p (Some (snd x))) /\
      (forall n e names, In (n, e) es -> ~ holds_file e names None) /\ (forall n e, In (n, e) es -> ~ unlistable e) /\
      (NoDup (map fst es) -> Forall (fun p => proper (snd p)) es -> NoDup (map fst l))).
    { assert (Sm' : forall n e, In (n, e) es -> small e) by (intros n e I; apply (small_sub es n); assumption). clear Sm.
      induction E as [|[n e] fs es r E1 E IHr].
      - exists []. split; [constructor|]. split; [intros x; split; [intros []|intros (? & ? & ? & [] & _)]|].
        split; [intros ? ? ? []|]. split; [intros ? ? []|]. constructor.
      - inversion IH as [|? ? IH1 IH2]; subst. destruct IHr as (l2 & A1 & A2 & A3 & A4 & A5); [exact IH2|intros; apply Sm' with n0; right; assumption|].
        cbn [fst snd] in *. destruct (IH1 _ _ (Sm' n e (or_introl eq_refl)) E1) as (l1 & B1 & B2 & B3 & B4 & B5).
        exists (map (fun x => (n :: fst x, snd x)) l1 ++ l2). split; [|split; [|split; [|split]]].
        + cbn [concat]. apply Forall2_app; [|exact A1]. clear - B1. induction B1; [constructor|]. constructor; [exact H|exact IHB1].
        + intro x. rewrite in_app_iff, A2, in_map_iff. split.
          * intros [([p c] & <- & I)|(n' & e' & p & I & Q)]; [|exists n', e', p; split; [right; exact I|exact Q]].
            apply B2 in I. exists n, e, p. split; [left; reflexivity|]. split; [reflexivity|exact I].
          * intros (n' & e' & p & [I|I] & Q1 & Q2); [left|right; exists n', e', p; auto].
            injection I as <- <-. exists (p, snd x). split; [destruct x; cbn [fst snd] in *; subst; reflexivity|]. apply B2. exact Q2.
        + intros n' e' names [I|I]; [injection I as <- <-; apply B3|apply (A3 n' e' names I)].
        + intros n' e' [I|I]; [injection I as <- <-; exact B4|apply (A4 n' e' I)].
        + intros N1 P1. cbn [map fst] in N1. inversion N1 as [|? ? N2 N3]; subst. inversion P1 as [|? ? P2 P3]; subst.
          rewrite map_app, map_map. cbn [fst]. apply NoDup_app_disjoint.
          * specialize (B5 P2). clear - B5. rewrite <- (map_map fst (fun p => n :: p)). apply FinFun.Injective_map_NoDup; [|exact B5]. intros a b Q. injection Q as ->. reflexivity.
          * apply A5; assumption.
          * intros p I1 I2. apply in_map_iff in I1 as ([p1 c1] & <- & I1). apply in_map_iff in I2 as ([p2 c2] & Q & I2). cbn [fst] in Q. subst p2.
            apply A2 in I2 as (n' & e' & p' & I & Q & _). cbn [fst] in Q. injection Q as -> _. apply N2. apply in_map_iff. exists (n', e'). auto. }
    destruct G as (l & A1 & A2 & A3 & A4 & A5). exists l. split; [exact A1|]. split; [|split; [|split]].
    + intro x. rewrite A2. split.
      * intros (n & e & p & I & -> & Hf). apply HF_dir with e; assumption.
      * intro Hf. inversion Hf as [|es' n e p c I Hf' E1]; subst. exists n, e, p. auto.
    + intros names Q. inversion Q as [|es' n e p c I Hf']; subst. apply (A3 n e p I). exact Hf'.
    + intro Q. inversion Q as [|es' n e I Q']; subst. apply (A4 n e I). exact Q'.
    + intro P0. inversion P0 as [| |es' N1 F1]; subst. apply A5; [exact N1|]. eapply Forall_impl; [|exact F1]. cbn. tauto.
Qed.
(** adding succeeds if every file can be read and has at least [size] bytes *)
Lemma files_total : forall e base, ~ unlistable e -> (base <> []) -> proper e ->
  (forall names c, holds_file e names c -> exists d, c = Some d /\ (size <= N.of_nat (length d) < 2 ^ 53)%N) -> exists fs, files e base = Ok fs.
Proof.
  unfold files. intro e. induction e as [c| |es IH] using entry_rect'; intros base Hu Hb Pr H.
  - destruct (H [] c (HF_file c)) as (d & -> & L). cbn [dir_files].
    destruct (dir_file_ok wild (clock base) size base d) as (f & -> & _); try lia; [exact Hb|]. eexists. reflexivity.
  - exfalso. apply Hu. constructor.
  - rewrite dir_files_dir. inversion Pr as [| |es' N1 F1]; subst. rewrite Forall_forall in IH, F1.
    destruct (rmapM_total _ _ (fun ne => dir_files wild clock size (snd ne) (sub_path base (fst ne))) es) as [r ->]; [|eexists; reflexivity].
    intros [n e] I. specialize (F1 _ I). cbn [fst snd] in *. apply (IH _ I); cbn [snd].
    + intro Q. apply Hu. apply UL_below with n e; assumption.
    + unfold sub_path. destruct (bseq base _); [tauto|]. intro Q. apply app_eq_nil in Q as [_ Q]. discriminate.
    + tauto.
    + intros names c Hf. apply (H (n :: names)). apply HF_dir with e; assumption.
Qed.
End Folder.

(** *** Paths *)
Lemma sub_path_other : forall base n, base <> s2b "." -> sub_path base n = base ++ x2f :: n.
Proof. intros base n H. unfold sub_path. destruct (bseq base (s2b ".")) eqn:E; [apply bseq_eq in E; contradiction|reflexivity]. Qed.
Lemma full_other : forall names base, base <> s2b "." -> base <> [] -> names <> [] -> full base names = base ++ x2f :: path_text names.
Proof.
  unfold full. induction names as [|n names IH]; intros base Hb He Hn; [congruence|]. cbn [fold_left]. rewrite sub_path_other by exact Hb.
  destruct names as [|m names]; [reflexivity|]. rewrite IH; [|intro Q|intro Q|discriminate].
  - rewrite <- app_assoc. reflexivity.
  - apply (f_equal (@length _)) in Q. rewrite app_length in Q. cbn [length s2b list_byte_of_string] in Q. destruct base; [congruence|]. cbn in Q. lia.
  - apply app_eq_nil in Q as [_ Q]. discriminate.
Qed.
Definition name_ok (n : bytes) : Prop := n <> [] /\ n <> s2b "." /\ ~ In x2f n.
Lemma full_root : forall names, Forall name_ok names -> names <> [] -> full (s2b ".") names = path_text names.
Proof.
  intros [|n names] F Hn; [congruence|]. inversion F as [|? ? (A & B & _) F']; subst.
  change (full (s2b ".") (n :: names)) with (full n names). destruct names as [|m names]; [reflexivity|]. rewrite full_other by (try assumption; discriminate). reflexivity.
Qed.
Lemma names_ok : forall e names c, holds_file e names c -> proper e -> Forall name_ok names.
Proof.
  induction 1 as [c|es n e p c I Hf IH]; intro Pr; [constructor|]. inversion Pr as [| |es' N1 F1]; subst.
  rewrite Forall_forall in F1. specialize (F1 _ I). cbn [fst snd] in F1. constructor; [unfold name_ok; tauto|apply IH; tauto].
Qed.
Lemma path_text_split : forall names, names <> [] -> Forall name_ok names -> split x2f (path_text names) = names.
Proof.
  induction names as [|n names IH]; intros H F; [congruence|]. inversion F as [|? ? (_ & _ & A) F']; subst.
  destruct names as [|m names].
  - apply split_none. exact A.
  - change (path_text (n :: m :: names)) with (n ++ x2f :: path_text (m :: names)).
    rewrite split_app by exact A. rewrite IH; [reflexivity|discriminate|exact F'].
Qed.

(** *** The whole folder *)
Lemma folder_ok : forall wild clock size es fs, (0 < size < 2 ^ 64)%N -> proper (Dir (Some es)) -> small (Dir (Some es)) ->
  dir_files wild clock size (Dir (Some es)) (s2b ".") = Ok fs ->
  (forall f, In f fs -> exists names data, holds_file (Dir (Some es)) names (Some data) /\ describes (N.to_nat size) (path_text names) data f) /\
  (forall names c, holds_file (Dir (Some es)) names c -> exists data f, c = Some data /\ In f fs /\ describes (N.to_nat size) (path_text names) data f) /\
  NoDup (map bf_path fs).
Proof.
  intros wild clock size es fs Hs Pr Sm H. destruct (files_found wild clock size Hs _ _ _ Sm H) as (l & A1 & A2 & A3 & A4 & A5). specialize (A5 Pr).
  assert (Ne : forall names c, holds_file (Dir (Some es)) names c -> names <> []) by (intros names c Q; inversion Q; discriminate).
  assert (Fp : forall names c, holds_file (Dir (Some es)) names c -> full (s2b ".") names = path_text names).
  { intros names c Q. apply full_root; [eapply names_ok; eassumption|eapply Ne; eassumption]. }
  split; [|split].
  - intros f I. apply In_nth_error in I as [i Ei].
    assert (Q : exists x, In x l /\ found size (s2b ".") f x).
    { clear - A1 Ei. revert i Ei. induction A1; intros [|i] Ei; cbn in Ei; try discriminate; [injection Ei as ->; exists y; split; [left; reflexivity|assumption]|].
      destruct (IHA1 i Ei) as (z & I & F). exists z. split; [right; exact I|exact F]. }
    destruct Q as ([names data] & I & F). apply A2 in I. cbn [fst snd] in I. exists names, data. split; [exact I|].
    unfold found in F. cbn [fst snd] in F. rewrite (Fp _ _ I) in F. exact F.
  - intros names [data|] Hf; [|exfalso; apply (A3 names Hf)].
    assert (I : In (names, data) l) by (apply A2; exact Hf).
    assert (Q : exists f, In f fs /\ found size (s2b ".") f (names, data)).
    { clear - A1 I. induction A1; [destruct I|]. destruct I as [->|I]; [exists x; split; [left; reflexivity|assumption]|].
      destruct (IHA1 I) as (f & If & F). exists f. split; [right; exact If|exact F]. }
    destruct Q as (f & If & F). exists data, f. split; [reflexivity|]. split; [exact If|]. unfold found in F. cbn [fst snd] in F. rewrite (Fp _ _ Hf) in F. exact F.
  - assert (E : map bf_path fs = map path_text (map fst l)).
    { rewrite map_map. assert (Q : forall x, In x l -> full (s2b ".") (fst x) = path_text (fst x)) by (intros x I; apply A2 in I; apply (Fp _ _ I)).
      clear - A1 Q. induction A1 as [|f x fs l F A1 IH]; [reflexivity|]. cbn [map]. rewrite IH by (intros; apply Q; right; assumption).
      destruct F as [F _]. rewrite F, Q by (left; reflexivity). reflexivity. }
    rewrite E. assert (O : Forall (fun names => names <> [] /\ Forall name_ok names) (map fst l)).
    { rewrite Forall_forall. intros names I. apply in_map_iff in I as (x & <- & I). apply A2 in I. split; [eapply Ne; eassumption|eapply names_ok; eassumption]. }
    clear - A5 O. induction (map fst l) as [|a m IH]; [constructor|]. inversion A5 as [|? ? N1 N2]; subst. inversion O as [|? ? [O1 O2] O3]; subst.
    cbn [map]. constructor; [|apply IH; assumption]. intro I. apply in_map_iff in I as (b & Q & I). apply N1.
    rewrite Forall_forall in O3. destruct (O3 b I) as [B1 B2]. rewrite <- (path_text_split a O1 O2), <- Q, (path_text_split b B1 B2). exact I.
Qed.
Lemma folder_total : forall wild clock size es, (0 < size < 2 ^ 64)%N -> proper (Dir (Some es)) -> ~ unlistable (Dir (Some es)) ->
  (forall names c, holds_file (Dir (Some es)) names c -> exists d, c = Some d /\ (size <= N.of_nat (length d) < 2 ^ 53)%N) ->
  exists fs, dir_files wild clock size (Dir (Some es)) (s2b ".") = Ok fs.
Proof. intros. apply files_total; auto. discriminate. Qed.
(** one short or unreadable file spoils the folder *)
Lemma folder_refuted : forall wild clock size e names c, (0 < size < 2 ^ 64)%N -> small e -> holds_file e names c ->
  (forall d, c = Some d -> (N.of_nat (length d) < size)%N) -> forall base, dir_files wild clock size e base = Err.
Proof.
  intros wild clock size e names c Hs Sm Hf Hc. induction Hf as [c|es n e p c I Hf IH]; intro base.
  - cbn [dir_files]. destruct c as [d|]; [|reflexivity]. rewrite dir_file_short; [reflexivity|lia|apply Hc; reflexivity|apply (Sm []); constructor].
  - rewrite dir_files_dir. rewrite rmapM_err; [reflexivity| |].
    + intros [m e'] I'. apply (files_safe wild clock size Hs). apply (small_sub es m); assumption.
    + exists (n, e). split; [exact I|]. apply IH; [apply (small_sub es n); assumption|exact Hc].
Qed.

(** ** Stores *)
Lemma unmarshal_empty_json : unmarshal_empty empty_json = Ok tt.
Proof. vm_compute. reflexivity. Qed.
Lemma never_retrieved : forall h d, (forall c, chunk_retrieve h d <> Ok c) /\ (forall f, bfile_retrieve h d <> Ok f) /\ (forall b, bucket_retrieve h d <> Ok b).
Proof.
  intros h d. repeat split; intro x; unfold chunk_retrieve, bfile_retrieve, bucket_retrieve; destruct (tr_empty _ d h); discriminate.
Qed.
Lemma bput_same : forall d k n c, bput d k n c k n = c.
Proof. intros d k n c. unfold bput. rewrite bseq_refl. destruct k; reflexivity. Qed.
Lemma bput_other : forall d k n c k' n', (k, n) <> (k', n') -> bput d k n c k' n' = d k' n'.
Proof.
  intros d k n c k' n' H. unfold bput. destruct (bkind_eqb k k' && bseq n n') eqn:E; [|reflexivity]. exfalso. apply H.
  apply andb_true_iff in E as [E1 E2]. apply bseq_eq in E2. subst. destruct k, k'; try discriminate; reflexivity.
Qed.
Lemma chunk_saved : forall c d, built_chunk c -> d BChunk (hash_string (ck_hash c)) = None ->
  chunk_save c (Bfs d []) = (Ok tt, Bfs (bput d BChunk (hash_string (ck_hash c)) (Some empty_json)) []).
Proof.
  intros c d B H. apply built_chunk_spec in B as (_ & S & _). unfold chunk_save, bunless, chunk_retrieve, tr_empty, bread. cbn [bfs_disk]. rewrite H. cbn [rbind].
  unfold chunk_to_transfer. destruct (N.eqb_spec (ck_size c) 0); [lia|]. reflexivity.
Qed.
(** once a chunk has been saved, reading it or saving it again crashes *)
Lemma chunk_crash : forall c s, built_chunk c -> bfs_disk s BChunk (hash_string (ck_hash c)) = Some empty_json ->
  chunk_retrieve (ck_hash c) (bfs_disk s) = Panic /\ chunk_save c s = (Panic, s).
Proof.
  intros c s B H. assert (R : chunk_retrieve (ck_hash c) (bfs_disk s) = Panic).
  { unfold chunk_retrieve, tr_empty, bread. rewrite H. cbn [rbind]. rewrite unmarshal_empty_json. reflexivity. }
  split; [exact R|]. unfold chunk_save, bunless. rewrite R. reflexivity.
Qed.
Lemma file_to_transfer_panics : forall f, built_file f -> (N.of_nat (length (bf_chunks f)) < 2 ^ 63)%N -> bfile_to_transfer f = Panic.
Proof.
  intros f B L. apply built_file_spec in B as (_ & P & N0 & _). unfold bfile_to_transfer.
  destruct (build_tree (map ck_hash (bf_chunks f))) as (t & k & -> & S & _); [intro Q; apply map_eq_nil in Q; contradiction|].
  cbn [rbind]. unfold tfile_now. destruct (bf_path f); [congruence|].
  destruct S as (_ & _ & S & _). rewrite map_length in S.
  destruct (N.eqb_spec (N.of_nat (length (bf_chunks f))) 0); [destruct (bf_chunks f); [congruence|cbn [length] in *; lia]|].
  rewrite int_small by exact L. destruct (Z.ltb_spec (Z.of_nat (ht_length t)) (Z.of_N (N.of_nat (length (bf_chunks f))))); [lia|reflexivity].
Qed.
Lemma bucket_transfers : forall b, built_bucket b -> (N.of_nat (length (bu_files b)) < 2 ^ 63)%N -> bucket_to_transfer b = Ok (bu_hash b).
Proof.
  intros b B L. apply built_bucket_spec in B as (_ & N0 & _). unfold bucket_to_transfer.
  destruct (build_tree (map bf_hash (bu_files b))) as (t & k & -> & S & _); [intro Q; apply map_eq_nil in Q; contradiction|].
  cbn [rbind]. destruct S as (_ & _ & S & _). rewrite map_length in S.
  destruct (N.eqb_spec (N.of_nat (length (bu_files b))) 0); [destruct (bu_files b); [congruence|cbn [length] in *; lia]|].
  rewrite int_small by exact L. destruct (Z.ltb_spec (Z.of_nat (ht_length t)) (Z.of_N (N.of_nat (length (bu_files b))))); [lia|reflexivity].
Qed.
Lemma bunless_not_ok : forall A (r : bdisk -> res A) a s, (forall x, r (bfs_disk s) <> Ok x) -> fst (a s) <> Ok tt -> fst (bunless r a s) <> Ok tt.
Proof. intros A r a s H Ha. unfold bunless. destruct (r (bfs_disk s)) eqn:E; [exfalso; apply (H a0); reflexivity|exact Ha|discriminate]. Qed.
Lemma bseq_not_ok : forall a b s, (forall s', fst (b s') <> Ok tt) -> fst ((a ;;; b) s) <> Ok tt.
Proof. intros a b s H. unfold bseq_act. destruct (a s) as [[[]| |] s'] eqn:E; [apply H|discriminate|discriminate]. Qed.
Lemma file_save_fails : forall f s, built_file f -> (N.of_nat (length (bf_chunks f)) < 2 ^ 63)%N -> fst (bfile_save f s) <> Ok tt.
Proof.
  intros f s B L. unfold bfile_save. apply bunless_not_ok; [intro x; apply never_retrieved|]. apply bseq_not_ok.
  intro s'. rewrite (file_to_transfer_panics f B L). discriminate.
Qed.
Definition sized_file (f : bfile) : Prop := (N.of_nat (length (bf_chunks f)) < 2 ^ 63)%N.
Lemma bucket_save_fails : forall b s, built_bucket b -> Forall sized_file (bu_files b) -> fst (bucket_save b s) <> Ok tt.
Proof.
  intros b s B L. apply built_bucket_spec in B as (_ & N0 & F). unfold bucket_save. apply bunless_not_ok; [intro x; apply never_retrieved|].
  destruct (bu_files b) as [|f fs]; [congruence|]. inversion F; inversion L; subst. cbn [beach].
  unfold bseq_act at 1 2. pose proof (file_save_fails f s ltac:(assumption) ltac:(assumption)) as Q.
  destruct (bfile_save f s) as [[[]| |] s']; [exfalso; apply Q; reflexivity|discriminate|discriminate].
Qed.
Lemma file_delete_panics : forall f s, built_file f -> sized_file f -> bfile_delete f s = (Panic, s).
Proof. intros f s B L. unfold bfile_delete. rewrite (file_to_transfer_panics f B L). reflexivity. Qed.
Lemma bucket_delete_panics : forall b s, built_bucket b -> Forall sized_file (bu_files b) -> bucket_delete b s = (Panic, s).
Proof.
  intros b s B L. apply built_bucket_spec in B as (_ & N0 & F). unfold bucket_delete. destruct (bu_files b) as [|f fs]; [congruence|].
  inversion F; inversion L; subst. cbn [beach]. unfold bseq_act. rewrite file_delete_panics by assumption. reflexivity.
Qed.
(** what saving a file leaves behind when nothing else goes wrong: its chunks, and a crash *)
Lemma chunks_saved : forall cs d, Forall built_chunk cs -> NoDup (map ck_hash cs) -> Forall (fun c => d BChunk (hash_string (ck_hash c)) = None) cs ->
  exists d', beach chunk_save cs (Bfs d []) = (Ok tt, Bfs d' []) /\
    (forall c, In c cs -> d' BChunk (hash_string (ck_hash c)) = Some empty_json) /\
    (forall k n, (forall c, In c cs -> (BChunk, hash_string (ck_hash c)) <> (k, n)) -> d' k n = d k n).
Proof.
  induction cs as [|c cs IH]; intros d F N0 E.
  - exists d. split; [reflexivity|]. split; [intros c []|reflexivity].
  - inversion F as [|? ? F1 F2]; subst. inversion E as [|? ? E1 E2]; subst. cbn [map] in N0. inversion N0 as [|? ? N1 N2]; subst.
    cbn [beach]. unfold bseq_act. rewrite chunk_saved by assumption.
    set (d1 := bput d BChunk (hash_string (ck_hash c)) (Some empty_json)).
    destruct (IH d1 F2 N2) as (d' & E' & G1 & G2).
    { rewrite Forall_forall in *. intros c' I. unfold d1. rewrite bput_other; [apply E2; exact I|].
      intro Q. injection Q as Q. apply hash_string_inj in Q. apply N1. rewrite Q. apply in_map. exact I. }
    exists d'. split; [exact E'|]. split.
    + intros c' [->|I]; [|apply G1; exact I]. destruct (in_dec (list_eq_dec Byte.byte_eq_dec) (ck_hash c') (map ck_hash cs)) as [Y|Y]; [contradiction|].
      rewrite G2; [unfold d1; apply bput_same|]. intros c'' I Q. injection Q as Q. apply hash_string_inj in Q. apply Y. rewrite <- Q. apply in_map. exact I.
    + intros k n H. rewrite G2; [|intros c'' I; apply H; right; exact I]. unfold d1. apply bput_other. apply H. left. reflexivity.
Qed.
Lemma file_save_leaves : forall f d, built_file f -> sized_file f -> d BFiles (hash_string (bf_hash f)) = None ->
  NoDup (map ck_hash (bf_chunks f)) -> Forall (fun c => d BChunk (hash_string (ck_hash c)) = None) (bf_chunks f) ->
  exists d', bfile_save f (Bfs d []) = (Panic, Bfs d' []) /\
    (forall c, In c (bf_chunks f) -> d' BChunk (hash_string (ck_hash c)) = Some empty_json) /\
    (forall k n, (forall c, In c (bf_chunks f) -> (BChunk, hash_string (ck_hash c)) <> (k, n)) -> d' k n = d k n).
Proof.
  intros f d B L Hd N0 F. pose proof (built_file_spec _ B) as (_ & _ & _ & Fc). destruct (chunks_saved _ d Fc N0 F) as (d' & E & G1 & G2).
  exists d'. split; [|split; [exact G1|exact G2]]. unfold bfile_save, bunless, bfile_retrieve, tr_empty, bread. cbn [bfs_disk]. rewrite Hd. cbn [rbind].
  unfold bseq_act. rewrite E. rewrite (file_to_transfer_panics f B L). reflexivity.
Qed.
Lemma chunk_deleted : forall c s, built_chunk c -> bfs_faults s = [] ->
  chunk_delete c s = match bfs_disk s BChunk (hash_string (ck_hash c)) with
                     | None => (Err, s)
                     | Some _ => (Ok tt, Bfs (bput (bfs_disk s) BChunk (hash_string (ck_hash c)) None) [])
                     end.
Proof.
  intros c [d fl] B H. cbn [bfs_faults] in H. subst. apply built_chunk_spec in B as (_ & S & _). unfold chunk_delete, chunk_to_transfer.
  destruct (N.eqb_spec (ck_size c) 0); [lia|]. reflexivity.
Qed.

(** ** Chunk data *)
Lemma no_torn_cons : forall f fl, no_torn (f :: fl) -> no_torn fl /\ forall i, f <> Torn i.
Proof. intros f fl H. split; [intros i I; apply (H i); right; exact I|intros i ->; apply (H i); left; reflexivity]. Qed.
Definition addressed (d : bdisk) : Prop := forall h x, d BData (hash_string h) = Some x -> from_bytes x = h.
Lemma write_no_torn : forall k n c s, no_torn (bfs_faults s) -> no_torn (bfs_faults (snd (bwrite k n c s))) /\
  (bwrite k n c s = (Err, Bfs (bfs_disk s) (bfs_faults (snd (bwrite k n c s)))) \/
   bwrite k n c s = (Ok tt, Bfs (bput (bfs_disk s) k n (Some c)) (bfs_faults (snd (bwrite k n c s))))).
Proof.
  intros k n c [d [|[| |i] fl]] H; cbn [bwrite bfs_faults bfs_disk snd] in *; try (apply no_torn_cons in H as [H H']); auto.
  exfalso. apply (H' i). reflexivity.
Qed.
Lemma remove_no_torn : forall k n s, no_torn (bfs_faults s) -> no_torn (bfs_faults (snd (bremove k n s))) /\
  (bfs_disk (snd (bremove k n s)) = bfs_disk s \/ bfs_disk (snd (bremove k n s)) = bput (bfs_disk s) k n None).
Proof.
  intros k n [d fl] H. unfold bremove. cbn [bfs_disk bfs_faults] in *. destruct (d k n); [|cbn [snd bfs_disk bfs_faults]; auto].
  destruct fl as [|[| |i] fl]; cbn [bfs_faults bfs_disk snd] in *; try (apply no_torn_cons in H as [H H']); auto.
Qed.
Lemma data_step : forall o s, no_torn (bfs_faults s) -> addressed (bfs_disk s) ->
  no_torn (bfs_faults (snd (data_run o s))) /\ addressed (bfs_disk (snd (data_run o s))).
Proof.
  intros [x|h] s F A; cbn [data_run].
  - unfold data_save, blift. rewrite FromBytes_ok. destruct (write_no_torn BData (hash_string (from_bytes x)) x s F) as [F' [E|E]];
      (split; [exact F'|]); rewrite E; cbn [snd bfs_disk]; [exact A|].
    intros h y H. destruct (list_eq_dec Byte.byte_eq_dec (from_bytes x) h) as [<-|Q]; [rewrite bput_same in H; injection H as <-; reflexivity|].
    rewrite bput_other in H; [apply A; exact H|]. intro R. injection R as R. apply hash_string_inj in R. contradiction.
  - unfold data_delete. destruct (remove_no_torn BData (hash_string h) s F) as [F' [E|E]]; (split; [exact F'|]); rewrite E; [exact A|].
    intros h' y H. destruct (list_eq_dec Byte.byte_eq_dec h h') as [<-|Q]; [rewrite bput_same in H; discriminate|].
    rewrite bput_other in H; [apply A; exact H|]. intro R. injection R as R. apply hash_string_inj in R. contradiction.
Qed.
Lemma data_steps : forall os s, no_torn (bfs_faults s) -> addressed (bfs_disk s) ->
  no_torn (bfs_faults (data_runs os s)) /\ addressed (bfs_disk (data_runs os s)).
Proof.
  induction os as [|o os IH]; intros s F A; [auto|]. cbn [data_runs]. destruct (data_step o s F A) as [F' A']. apply IH; assumption.
Qed.
Lemma data_addressed : forall os fl h x, no_torn fl -> data_retrieve h (bfs_disk (data_runs os (Bfs empty_bdisk fl))) = Ok x -> from_bytes x = h.
Proof.
  intros os fl h x F H. destruct (data_steps os (Bfs empty_bdisk fl) F) as [_ A]; [intros ? ? Q; discriminate|].
  unfold data_retrieve, bread in H. destruct (bfs_disk (data_runs os (Bfs empty_bdisk fl)) BData (hash_string h)) eqn:E; [|discriminate]. injection H as ->. apply A. exact E.
Qed.
Lemma data_kept_step : forall o s h, no_torn (bfs_faults s) -> o <> DeleteData h -> bfs_disk s BData (hash_string h) <> None ->
  bfs_disk (snd (data_run o s)) BData (hash_string h) <> None.
Proof.
  intros [x|h'] s h F N0 H; cbn [data_run].
  - unfold data_save, blift. rewrite FromBytes_ok. destruct (write_no_torn BData (hash_string (from_bytes x)) x s F) as [_ [E|E]]; rewrite E; cbn [snd bfs_disk]; [exact H|].
    destruct (list_eq_dec Byte.byte_eq_dec (from_bytes x) h) as [<-|Q]; [rewrite bput_same; discriminate|].
    rewrite bput_other; [exact H|]. intro R. injection R as R. apply hash_string_inj in R. contradiction.
  - unfold data_delete. destruct (remove_no_torn BData (hash_string h') s F) as [_ [E|E]]; rewrite E; [exact H|].
    rewrite bput_other; [exact H|]. intro R. injection R as R. apply hash_string_inj in R. congruence.
Qed.
Lemma data_kept : forall os s h, no_torn (bfs_faults s) -> addressed (bfs_disk s) -> ~ In (DeleteData h) os -> bfs_disk s BData (hash_string h) <> None ->
  bfs_disk (data_runs os s) BData (hash_string h) <> None.
Proof.
  induction os as [|o os IH]; intros s h F A I H; [exact H|]. cbn [data_runs]. destruct (data_step o s F A) as [F' A'].
  apply IH; [exact F'|exact A'|intro Q; apply I; right; exact Q|]. apply data_kept_step; [exact F|intros ->; apply I; left; reflexivity|exact H].
Qed.
(** whatever was saved before, and unless it is deleted afterwards *)
Lemma data_saved : forall os x os' fl, no_torn fl ->
  let s := data_runs os (Bfs empty_bdisk fl) in
  fst (data_save x s) = Ok tt -> ~ In (DeleteData (from_bytes x)) os' ->
  exists y, data_retrieve (from_bytes x) (bfs_disk (data_runs os' (snd (data_save x s)))) = Ok y /\ (y = x \/ hash_coincidence y x).
Proof.
  intros os x os' fl F s H I. destruct (data_steps os (Bfs empty_bdisk fl) F) as [F1 A1]; [intros ? ? Q; discriminate|]. fold s in F1, A1.
  destruct (data_step (SaveData x) s F1 A1) as [F2 A2]. cbn [data_run] in F2, A2.
  assert (W : bfs_disk (snd (data_save x s)) BData (hash_string (from_bytes x)) <> None).
  { revert H. unfold data_save, blift. rewrite FromBytes_ok. destruct (write_no_torn BData (hash_string (from_bytes x)) x s F1) as [_ [E|E]]; rewrite E; cbn [fst snd bfs_disk]; [discriminate|].
    rewrite bput_same. discriminate. }
  pose proof (data_kept os' _ _ F2 A2 I W) as K. destruct (data_steps os' _ F2 A2) as [_ A3].
  unfold data_retrieve, bread. destruct (bfs_disk (data_runs os' (snd (data_save x s))) BData (hash_string (from_bytes x))) as [y|] eqn:E; [|congruence].
  exists y. split; [reflexivity|]. apply A3 in E. apply from_bytes_inj. exact E.
Qed.
(** a torn write is served *)
Lemma data_torn : forall x i fl d, i < length x -> let s := Bfs d (Torn i :: fl) in
  fst (data_save x s) = Err /\ data_retrieve (from_bytes x) (bfs_disk (snd (data_save x s))) = Ok (firstn i x) /\ firstn i x <> x /\
  (from_bytes (firstn i x) = from_bytes x -> hash_coincidence (firstn i x) x).
Proof.
  intros x i fl d L s. unfold data_save, blift, data_retrieve, bread. rewrite FromBytes_ok. cbn [bwrite s bfs_disk bfs_faults fst snd].
  rewrite bput_same. assert (N0 : firstn i x <> x) by (intro Q; apply (f_equal (@length _)) in Q; rewrite firstn_length in Q; lia).
  split; [reflexivity|]. split; [reflexivity|]. split; [exact N0|]. intro Q. apply from_bytes_inj in Q as [Q|Q]; [contradiction|exact Q].
Qed.

(** ** The chunks determine the content *)
Lemma same_pieces : forall cs p1 p2, Forall2 records cs p1 -> Forall2 records cs p2 ->
  p1 = p2 \/ exists a b, In a p1 /\ In b p2 /\ sha_collision a b.
Proof.
  intros cs p1 p2 F1. revert p2. induction F1 as [|c a cs p1 R1 F1 IH]; intros p2 F2; inversion F2 as [|? b ? p2' R2 F2']; subst; [left; reflexivity|].
  destruct R1 as (S1 & D1 & _). destruct R2 as (S2 & D2 & _). assert (L : length a = length b) by lia.
  assert (Q : a = b \/ sha_collision a b).
  { rewrite D1 in D2. destruct (Nat.eq_dec (length a) 64) as [E|E].
    - left. rewrite !from_bytes_64 in D2 by lia. exact D2.
    - apply from_bytes_inj_not64; [exact E|lia|exact D2]. }
  destruct Q as [->|Q]; [|right; exists a, b; split; [left; reflexivity|split; [left; reflexivity|exact Q]]].
  destruct (IH _ F2') as [->|(x & y & X & Y & Z)]; [left; reflexivity|right; exists x, y; split; [right; exact X|split; [right; exact Y|exact Z]]].
Qed.
Lemma content_determined : forall c p1 p2 d1 d2 f, describes c p1 d1 f -> describes c p2 d2 f ->
  (p1 = p2 /\ d1 = d2) \/ exists a b, sha_collision a b /\ (exists u v, d1 = u ++ a ++ v) /\ (exists u v, d2 = u ++ b ++ v).
Proof.
  intros c p1 p2 d1 d2 f (E1 & ps1 & (C1 & _) & F1) (E2 & ps2 & (C2 & _) & F2). destruct (same_pieces _ _ _ F1 F2) as [E|(a & b & I1 & I2 & S)].
  - left. split; congruence.
  - right. exists a, b. split; [exact S|].
    assert (Q : forall (x : bytes) l, In x l -> exists u v, concat l = u ++ x ++ v).
    { intros x l I. apply in_split in I as (l1 & l2 & ->). exists (concat l1), (concat l2). rewrite concat_app. reflexivity. }
    split; [rewrite <- C1|rewrite <- C2]; apply Q; assumption.
Qed.

(** ** Deleting under faults *)
Lemma remove_deletes : forall k0 n0, deletes (bremove k0 n0) k0 n0.
Proof.
  intros k0 n0 [d fl]. unfold bremove. cbn [bfs_disk bfs_faults].
  destruct (d k0 n0) eqn:E; [destruct fl as [|[| |i] fl]|]; cbn [fst snd bfs_disk hd];
    (split; [discriminate|]; split; [intro Q; first [discriminate Q | split; [congruence|apply bput_same]]|];
     split; [intro Q; first [discriminate Q | reflexivity]|];
     split; [intros N F; first [reflexivity | discriminate F | congruence]|]; intros k n N; first [reflexivity | apply bput_other; congruence]).
Qed.
Lemma chunk_deletes : forall c, built_chunk c -> deletes (chunk_delete c) BChunk (hash_string (ck_hash c)).
Proof.
  intros c B s. apply built_chunk_spec in B as (_ & S & _). unfold chunk_delete, chunk_to_transfer.
  destruct (N.eqb_spec (ck_size c) 0); [lia|]. apply (remove_deletes BChunk (hash_string (ck_hash c)) s).
Qed.
Lemma data_deletes : forall h, deletes (data_delete h) BData (hash_string h).
Proof. intros h. apply remove_deletes. Qed.
(** ** Chunk data under all faults *)
Definition begun (P : bytes -> Prop) (d : bdisk) : Prop := forall h y, d BData (hash_string h) = Some y -> exists x i, P x /\ from_bytes x = h /\ y = firstn i x.
Lemma begun_step : forall (P : bytes -> Prop) o s, (forall x, o = SaveData x -> P x) -> begun P (bfs_disk s) -> begun P (bfs_disk (snd (data_run o s))).
Proof.
  intros P [x|h] [d fl] I A; cbn [data_run].
  - assert (W : forall c i, c = firstn i x -> begun P (bput d BData (hash_string (from_bytes x)) (Some c))).
    { intros c i E h y H. destruct (list_eq_dec Byte.byte_eq_dec (from_bytes x) h) as [<-|Q].
      - rewrite bput_same in H. injection H as <-. exists x, i. split; [apply I; reflexivity|]. auto.
      - rewrite bput_other in H; [apply A; exact H|]. intro R. injection R as R. apply hash_string_inj in R. contradiction. }
    unfold data_save, blift. rewrite FromBytes_ok. destruct fl as [|[| |i] fl]; cbn [bwrite bfs_faults bfs_disk snd];
      [apply (W x (length x)); symmetry; apply firstn_all|apply (W x (length x)); symmetry; apply firstn_all|exact A|apply (W _ i); reflexivity].
  - assert (W : begun P (bput d BData (hash_string h) None)).
    { intros h' y H. destruct (list_eq_dec Byte.byte_eq_dec h h') as [<-|Q]; [rewrite bput_same in H; discriminate|].
      rewrite bput_other in H; [apply A; exact H|]. intro R. injection R as R. apply hash_string_inj in R. contradiction. }
    unfold data_delete, bremove. cbn [bfs_disk bfs_faults]. destruct (d BData (hash_string h)); [|exact A].
    destruct fl as [|[| |i] fl]; cbn [snd bfs_disk]; assumption.
Qed.
Lemma begun_steps : forall (P : bytes -> Prop) os s, (forall x, In (SaveData x) os -> P x) -> begun P (bfs_disk s) -> begun P (bfs_disk (data_runs os s)).
Proof.
  intros P. induction os as [|o os IH]; intros s I A; [exact A|]. cbn [data_runs]. apply IH; [intros x X; apply I; right; exact X|].
  apply begun_step; [intros x ->; apply I; left; reflexivity|exact A].
Qed.
Lemma data_begun : forall os fl h y, data_retrieve h (bfs_disk (data_runs os (Bfs empty_bdisk fl))) = Ok y ->
  exists x i, In (SaveData x) os /\ from_bytes x = h /\ y = firstn i x.
Proof.
  intros os fl h y H. unfold data_retrieve, bread in H.
  destruct (bfs_disk (data_runs os (Bfs empty_bdisk fl)) BData (hash_string h)) as [z|] eqn:E; [|discriminate]. injection H as ->.
  apply (begun_steps (fun x => In (SaveData x) os) os (Bfs empty_bdisk fl)); [auto|intros ? ? Q; discriminate|exact E].
Qed.
Lemma data_reported : forall x s, let s' := snd (data_save x s) in
  (fst (data_save x s) = Ok tt /\ data_retrieve (from_bytes x) (bfs_disk s') = Ok x \/ fst (data_save x s) = Err) /\
  (forall h, h <> from_bytes x -> data_retrieve h (bfs_disk s') = data_retrieve h (bfs_disk s)).
Proof.
  intros x [d fl] s'. unfold s', data_save, blift. rewrite FromBytes_ok.
  assert (O : forall c h, h <> from_bytes x -> data_retrieve h (bput d BData (hash_string (from_bytes x)) (Some c)) = data_retrieve h d).
  { intros c h N0. unfold data_retrieve, bread. rewrite bput_other; [reflexivity|]. intro R. injection R as R. apply hash_string_inj in R. congruence. }
  destruct fl as [|[| |i] fl]; cbn [bwrite bfs_faults bfs_disk fst snd]; (split; [|first [apply O|reflexivity]]); auto;
    left; split; [reflexivity| |reflexivity|]; unfold data_retrieve, bread; rewrite bput_same; reflexivity.
Qed.
