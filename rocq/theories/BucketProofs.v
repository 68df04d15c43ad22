(** Proofs about buckets. *)
From Coq Require Import SpecFloat Lia ZifyBool ZifyNat ZifyN.
From Verif Require Import Base BaseFacts Sha512 HashModel HashSpec HashProofs HashTreeModel HashTreeProofs EntitiesModel FloatModel FloatFacts
  JsonModel FileModel StoreModel BucketModel BucketSpec.

Lemma f2_length : forall A B (R : A -> B -> Prop) l l', Forall2 R l l' -> length l = length l'.
Proof. induction 1; cbn [length]; congruence. Qed.

(** ** Builders *)
Lemma chunk_now_iff : forall now size d created c, chunk_now now size (Some d) created = Ok c <->
  size <> 0%N /\ c = Chunk (Immutable (from_multi [itoa_u64 size; d]) (match created with Some t => t | None => now end)) size d.
Proof.
  intros. unfold chunk_now, FromMultiBytes. rewrite FromBytes_ok. cbn [rbind immutable_now].
  destruct (N.eqb_spec size 0); split; intro H; try discriminate; try tauto.
  - injection H as <-. auto.
  - destruct H as [_ ->]. reflexivity.
Qed.
Lemma bfile_now_iff : forall now path cs created f, bfile_now now path cs created = Ok f <->
  path <> [] /\ cs <> [] /\ f = BFile (Immutable (from_multi (path :: map ck_hash cs)) (match created with Some t => t | None => now end)) path cs.
Proof.
  intros. unfold bfile_now, FromMultiBytes. rewrite FromBytes_ok. cbn [rbind immutable_now].
  destruct path; [|destruct cs]; split; intro H; try discriminate; try (destruct H as (? & ? & ?); subst; try congruence; reflexivity).
  injection H as <-. repeat split; discriminate.
Qed.
Lemma bucket_now_iff : forall now fs created b, bucket_now now fs created = Ok b <->
  fs <> [] /\ b = Bucket (Immutable (from_multi (map bf_hash fs)) (match created with Some t => t | None => now end)) fs.
Proof.
  intros. unfold bucket_now, FromMultiBytes. rewrite FromBytes_ok. cbn [rbind immutable_now].
  destruct fs; split; intro H; try discriminate; try (destruct H as (? & ?); subst; try congruence; reflexivity).
  injection H as <-. split; [discriminate|reflexivity].
Qed.
Lemma built_chunk_spec : forall c, built_chunk c -> ck_hash c = from_bytes (chunk_text c) /\ (0 < ck_size c < 2 ^ 64)%N /\ length (ck_data c) = 64.
Proof.
  intros c (now & size & d & created & L & D & H). apply chunk_now_iff in H as [N0 ->].
  unfold ck_hash, chunk_text, from_multi. cbn [ck_im im_hash ck_size ck_data concat]. rewrite app_nil_r. split; [reflexivity|]. split; [lia|exact D].
Qed.
Lemma built_chunk_64 : forall c, built_chunk c -> length (ck_hash c) = 64.
Proof. intros c H. apply built_chunk_spec in H as [-> _]. apply from_bytes_length. Qed.
Lemma built_file_spec : forall f, built_file f -> bf_hash f = from_bytes (file_text f) /\ bf_path f <> [] /\ bf_chunks f <> [] /\ Forall built_chunk (bf_chunks f).
Proof.
  intros f (now & p & cs & created & F & H). apply bfile_now_iff in H as (P & N0 & ->).
  unfold bf_hash, file_text, from_multi. cbn [bf_im im_hash bf_path bf_chunks concat]. auto.
Qed.
Lemma built_file_64 : forall f, built_file f -> length (bf_hash f) = 64.
Proof. intros f H. apply built_file_spec in H as [-> _]. apply from_bytes_length. Qed.
Lemma built_bucket_spec : forall b, built_bucket b -> bu_hash b = from_bytes (bucket_text b) /\ bu_files b <> [] /\ Forall built_file (bu_files b).
Proof.
  intros b (now & fs & created & F & H). apply bucket_now_iff in H as (P & ->).
  unfold bu_hash, bucket_text, from_multi. cbn [bu_im im_hash bu_files]. auto.
Qed.

(** ** Hashes *)
Lemma app_inj_tail_len : forall (a b c d : bytes), length b = length d -> a ++ b = c ++ d -> a = c /\ b = d.
Proof.
  intros a b c d L E. assert (length a = length c) by (apply (f_equal (@length _)) in E; rewrite !app_length in E; lia).
  apply app_inj_len; assumption.
Qed.
Lemma chunk_commits : forall c1 c2, built_chunk c1 -> built_chunk c2 -> ck_hash c1 = ck_hash c2 ->
  (ck_size c1 = ck_size c2 /\ ck_data c1 = ck_data c2) \/ sha_collision (chunk_text c1) (chunk_text c2).
Proof.
  intros c1 c2 B1 B2 H. apply built_chunk_spec in B1 as (E1 & S1 & D1). apply built_chunk_spec in B2 as (E2 & S2 & D2).
  rewrite E1, E2 in H. pose proof (itoa_u64_length (ck_size c1) ltac:(lia)) as L1. pose proof (itoa_u64_length (ck_size c2) ltac:(lia)) as L2.
  apply from_bytes_inj_not64 in H as [H|H]; [|right; exact H| |]; try (unfold chunk_text; rewrite app_length; lia).
  left. unfold chunk_text in H. apply app_inj_tail_len in H as [A B]; [|lia]. split; [|exact B].
  apply itoa_u64_inj; [lia|lia|exact A].
Qed.
Lemma concat64_inj : forall l1 l2 : list bytes, Forall (fun h => length h = 64) l1 -> Forall (fun h => length h = 64) l2 -> concat l1 = concat l2 -> l1 = l2.
Proof.
  induction l1 as [|a l1 IH]; intros [|b l2] F1 F2 E; inversion F1; inversion F2; subst; cbn [concat] in E.
  - reflexivity.
  - apply (f_equal (@length _)) in E. rewrite app_length in E. cbn [length] in E. lia.
  - apply (f_equal (@length _)) in E. rewrite app_length in E. cbn [length] in E. lia.
  - apply app_inj_len in E as [-> E]; [|lia]. f_equal. apply IH; assumption.
Qed.
Lemma chunks_64 : forall l, Forall built_chunk l -> Forall (fun h : bytes => length h = 64) (map ck_hash l).
Proof. induction 1; constructor; [apply built_chunk_64; assumption|assumption]. Qed.
Lemma files_64 : forall l, Forall built_file l -> Forall (fun h : bytes => length h = 64) (map bf_hash l).
Proof. induction 1; constructor; [apply built_file_64; assumption|assumption]. Qed.
Lemma concat64_length : forall l : list bytes, Forall (fun h => length h = 64) l -> length (concat l) = 64 * length l.
Proof. induction 1; cbn [concat length]; [reflexivity|]. rewrite app_length. lia. Qed.
Lemma bucket_commits : forall b1 b2, built_bucket b1 -> built_bucket b2 -> bu_hash b1 = bu_hash b2 ->
  map bf_hash (bu_files b1) = map bf_hash (bu_files b2) \/ hash_coincidence (bucket_text b1) (bucket_text b2).
Proof.
  intros b1 b2 B1 B2 H. apply built_bucket_spec in B1 as (E1 & _ & F1). apply built_bucket_spec in B2 as (E2 & _ & F2).
  rewrite E1, E2 in H. apply from_bytes_inj in H as [H|H]; [left|right; exact H].
  apply concat64_inj; [apply files_64; assumption|apply files_64; assumption|exact H].
Qed.
Lemma file_commits : forall f1 f2, built_file f1 -> built_file f2 -> length (bf_path f1) = length (bf_path f2) -> bf_hash f1 = bf_hash f2 ->
  (bf_path f1 = bf_path f2 /\ map ck_hash (bf_chunks f1) = map ck_hash (bf_chunks f2)) \/ sha_collision (file_text f1) (file_text f2).
Proof.
  intros f1 f2 B1 B2 L H. apply built_file_spec in B1 as (E1 & P1 & N1 & F1). apply built_file_spec in B2 as (E2 & P2 & N2 & F2).
  rewrite E1, E2 in H. 
  assert (Q : forall f, bf_path f <> [] -> bf_chunks f <> [] -> Forall built_chunk (bf_chunks f) -> length (file_text f) <> 64).
  { intros f Hp Hc Hf. unfold file_text. rewrite app_length, concat64_length by (apply chunks_64; exact Hf). rewrite map_length.
    destruct (bf_path f); [congruence|]. destruct (bf_chunks f); [congruence|]. cbn [length]. lia. }
  apply from_bytes_inj_not64 in H as [H|H]; [|right; exact H|apply Q; assumption|apply Q; assumption].
  left. unfold file_text in H. apply app_inj_len in H as [A B]; [|exact L]. split; [exact A|].
  apply concat64_inj; [apply chunks_64; assumption|apply chunks_64; assumption|exact B].
Qed.
(** a chunk hash can move into the path *)
Lemma file_refuted : forall p c c' cs t, p <> [] -> built_chunk c -> built_chunk c' -> Forall built_chunk cs ->
  exists f1 f2, bfile_now 0 p (c :: c' :: cs) (Some t) = Ok f1 /\ bfile_now 0 (p ++ ck_hash c) (c' :: cs) (Some t) = Ok f2 /\
    bf_hash f1 = bf_hash f2 /\ bf_path f1 <> bf_path f2.
Proof.
  intros p c c' cs t Hp B B' F. eexists _, _. split; [apply bfile_now_iff; repeat split; [exact Hp|discriminate]|].
  split; [apply bfile_now_iff; repeat split; [intro Q; apply app_eq_nil in Q as [Q _]; contradiction|discriminate]|].
  unfold bf_hash, from_multi. cbn [bf_im im_hash bf_path map concat]. rewrite <- app_assoc. split; [reflexivity|].
  intro E. apply (f_equal (@length _)) in E. rewrite app_length, (built_chunk_64 _ B) in E. lia.
Qed.

(** ** Splitting *)
Local Open Scope Z_scope.
Lemma int64_small : forall z, 0 <= z < 2 ^ 63 -> int64 z = z.
Proof. intros z H. unfold int64, int_of_u64. rewrite Z.mod_small by lia. destruct (N.ltb_spec (Z.to_N z) (2 ^ 63)); lia. Qed.
Lemma int_small : forall n, (n < 2 ^ 63)%N -> int_of_u64 n = Z.of_N n.
Proof. intros n H. unfold int_of_u64. destruct (N.ltb_spec n (2 ^ 63)); [reflexivity|lia]. Qed.
Lemma loops_spec : forall wild data size, Z.of_nat (length data) < 2 ^ 53 -> (0 < size < 2 ^ 64)%N ->
  loops wild data size = Z.of_nat (length data) / Z.of_N size.
Proof. intros wild data size H S. unfold loops. rewrite floor_div by lia. reflexivity. Qed.
Lemma slice_ok : forall data b e, 0 <= b <= e -> e <= Z.of_nat (length data) ->
  slice data b e = Ok (firstn (Z.to_nat (e - b)) (skipn (Z.to_nat b) data)).
Proof.
  intros data b e H L. unfold slice. destruct (Z.leb_spec 0 b); [|lia]. destruct (Z.leb_spec b e); [|lia].
  destruct (Z.leb_spec e (Z.of_nat (length data))); [reflexivity|lia].
Qed.
Lemma piece_ok : forall now p, (0 < length p)%nat -> Z.of_nat (length p) < 2 ^ 63 -> exists c, piece_chunk now p = Ok c /\ records c p.
Proof.
  intros now p H L. unfold piece_chunk. rewrite FromBytes_ok. cbn [rbind]. eexists. split; [apply chunk_now_iff; split; [lia|reflexivity]|].
  unfold records, ck_hash. cbn [ck_size ck_data ck_im im_hash]. split; [reflexivity|]. split; [reflexivity|].
  unfold from_multi. cbn [concat]. rewrite app_nil_r. do 2 f_equal. unfold itoa_u64. rewrite int_small by lia. rewrite nat_N_Z. reflexivity.
Qed.
Lemma skipn_skipn_add : forall (A : Type) (l : list A) a b, skipn a (skipn b l) = skipn (b + a) l.
Proof. intros A l a b. revert l. induction b as [|b IH]; intros [|x l]; cbn [skipn Nat.add]; auto. apply skipn_nil. Qed.
Lemma chunk_loop_ok : forall clock data size n i, (0 < size)%N -> Z.of_nat (length data) < 2 ^ 53 -> 0 <= i ->
  let c := Z.of_N size in let total := Z.of_nat (length data) / c in
  n <> O -> Z.of_nat n = total - i ->
  exists cs pieces, chunk_loop clock data size total n i = Ok cs /\ pieces_of (N.to_nat size) (skipn (Z.to_nat (i * c)) data) pieces /\
    Forall2 records cs pieces /\ length pieces = n.
Proof.
  intros clock data size n. induction n as [|n IH]; intros i Hs L Hi c total Hn E; [congruence|]. clear Hn.
  set (len := Z.of_nat (length data)) in *.
  pose proof (Z.div_mod len c ltac:(lia)) as D. pose proof (Z.mod_pos_bound len c ltac:(lia)) as R. fold total in D.
  assert (Hc : 0 < c) by lia. assert (Cl : c <= len) by nia.
  cbn [chunk_loop]. rewrite (int_small size) by lia. fold c.
  assert (B1 : 0 <= i * c) by nia. assert (B2 : (i + 1) * c <= len) by nia.
  rewrite (int64_small (i * c)) by nia.
  destruct (Z.eqb_spec (i + 1) total) as [Ei|Ni].
  - fold len. rewrite slice_ok by (fold len; nia). cbn [rbind].
    set (p := firstn (Z.to_nat (len - i * c)) (skipn (Z.to_nat (i * c)) data)).
    assert (Ep : p = skipn (Z.to_nat (i * c)) data).
    { apply firstn_all2. rewrite skipn_length. fold len. lia. }
    assert (Lp : Z.of_nat (length p) = len - i * c) by (rewrite Ep, skipn_length; nia).
    destruct (piece_ok (clock i) p ltac:(nia) ltac:(nia)) as (k & -> & Rk). cbn [rbind].
    assert (n = 0)%nat as -> by lia. cbn [chunk_loop rbind]. exists [k], [p]. split; [reflexivity|].
    split; [|split; [constructor; [exact Rk|constructor]|reflexivity]].
    split; [cbn [concat]; rewrite app_nil_r; exact Ep|]. exists [], p. split; [reflexivity|]. split; [constructor|]. nia.
  - rewrite (int64_small ((i + 1) * c)) by nia. rewrite slice_ok by (fold len; nia). cbn [rbind].
    replace ((i + 1) * c - i * c) with c by ring.
    set (rest := skipn (Z.to_nat (i * c)) data). set (p := firstn (Z.to_nat c) rest).
    assert (Lr : Z.of_nat (length rest) = len - i * c) by (unfold rest; rewrite skipn_length; nia).
    assert (Lq : c <= Z.of_nat (length rest)) by (rewrite Lr; nia).
    assert (Lp : length p = Z.to_nat c) by (unfold p; rewrite firstn_length; clear - Lq Hc; lia).
    destruct (piece_ok (clock i) p ltac:(lia) ltac:(lia)) as (k & -> & Rk). cbn [rbind].
    assert (N1 : n <> O) by (clear - E Ni; clearbody total; lia).
    assert (N2 : Z.of_nat n = total - (i + 1)) by (clear - E; clearbody total; lia).
    destruct (IH (i + 1) Hs L ltac:(lia) N1 N2) as (cs & ps & Ec & (P1 & init & last & P2 & P3 & P4) & P5 & P6).
    fold c total in Ec. rewrite Ec. cbn [rbind]. exists (k :: cs), (p :: ps). split; [reflexivity|].
    split; [|split; [constructor; assumption|cbn [length]; lia]].
    split.
    + cbn [concat]. fold c in P1. rewrite P1. replace (Z.to_nat ((i + 1) * c)) with (Z.to_nat (i * c) + Z.to_nat c)%nat by nia.
      rewrite <- skipn_skipn_add. fold rest. apply firstn_skipn.
    + exists (p :: init), last. split; [rewrite P2; reflexivity|]. split; [constructor; [lia|exact P3]|exact P4].
Qed.
Lemma dir_file_ok : forall wild clock size path data, (0 < size)%N -> (size <= N.of_nat (length data))%N -> (N.of_nat (length data) < 2 ^ 53)%N ->
  path <> [] ->
  exists f, dir_file wild clock size path (Some data) = Ok f /\ describes (N.to_nat size) path data f /\
    length (bf_chunks f) = Nat.div (length data) (N.to_nat size).
Proof.
  intros wild clock size path data Hs Hl Hd Hp. unfold dir_file. rewrite loops_spec by lia.
  set (total := Z.of_nat (length data) / Z.of_N size).
  assert (T : 1 <= total) by (apply Z.div_le_lower_bound; lia).
  destruct (chunk_loop_ok clock data size (Z.to_nat total) 0 Hs ltac:(lia) ltac:(lia) ltac:(lia) ltac:(fold total; lia)) as (cs & ps & E & P & F & Lp).
  fold total in E. rewrite E. cbn [rbind].
  assert (Lc : length cs = Z.to_nat total) by (rewrite <- Lp; exact (f2_length _ _ _ _ _ F)).
  eexists. split; [apply bfile_now_iff; split; [exact Hp|]; split; [destruct cs; [cbn in Lc; lia|discriminate]|reflexivity]|].
  split; [split; [reflexivity|]; exists ps; split; [exact P|exact F]|].
  cbn [bf_chunks]. rewrite Lc. unfold total. rewrite <- (N_nat_Z size), <- Nat2Z.inj_div at 1.
  rewrite Nat2Z.id. reflexivity.
Qed.
Lemma dir_file_short : forall wild clock size path data, (size < 2 ^ 64)%N -> (N.of_nat (length data) < size)%N -> (N.of_nat (length data) < 2 ^ 53)%N ->
  dir_file wild clock size path (Some data) = Err.
Proof.
  intros wild clock size path data Hs Hl Hd. unfold dir_file. rewrite loops_spec by lia.
  rewrite Z.div_small by lia. cbn [Z.to_nat chunk_loop rbind]. destruct path; reflexivity.
Qed.
