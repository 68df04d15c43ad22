(** C01 - C08: hashes and hash trees. *)
From Coq Require Import Permutation.
From Verif Require Import Base BaseFacts Sha512 HashModel HashTreeModel HashSpec HashProofs HashMore HashTreeProofs.

(** ** C01 *)

(** FromBytes never fails or panics and yields 64 bytes. *)
Theorem C01_from_bytes_total : forall input, exists h, FromBytes input = Ok h /\ length h = 64.
Proof. exact (fun x => ex_intro _ (from_bytes x) (conj (FromBytes_ok x) (from_bytes_length x))). Qed.
Print Assumptions C01_from_bytes_total.

(** FromMultiBytes is FromBytes of the concatenation, hence total as well. *)
Theorem C01_from_multi_total : forall rows,
  exists h, FromMultiBytes rows = Ok h /\ FromBytes (concat rows) = Ok h /\ length h = 64.
Proof.
  exact (fun x => ex_intro _ (from_multi x)
    (conj (FromMultiBytes_ok x) (conj (FromBytes_ok (concat x)) (from_bytes_length (concat x))))).
Qed.
Print Assumptions C01_from_multi_total.

(** The text form of a hash decodes to the hash. *)
Theorem C01_string_roundtrip : forall h, length h = 64 -> FromString (hash_string h) = Ok h.
Proof. exact (fun h H => eq_trans (FromString_from_string (hash_string h)) (from_string_hash_string h H)). Qed.
Print Assumptions C01_string_roundtrip.

(** 128 lower case hexadecimal characters. *)
Theorem C01_string_shape : forall h, length h = 64 ->
  length (hash_string h) = 128 /\ Forall is_lowhex (hash_string h).
Proof. exact (fun h H => conj (hash_string_length h H) (hex_encode_lowhex h)). Qed.
Print Assumptions C01_string_shape.

Theorem C01_compare : forall a b, compare a b = true <-> a = b.
Proof. exact compare_eq. Qed.
Print Assumptions C01_compare.

Theorem C01_string_injective : forall a b, hash_string a = hash_string b -> a = b.
Proof. exact hash_string_inj. Qed.
Print Assumptions C01_string_injective.

Theorem C01_path_injective : forall a b, length a = 64 -> length b = 64 -> hash_path a = hash_path b -> a = b.
Proof. exact hash_path_inj. Qed.
Print Assumptions C01_path_injective.

(** The path is the text of the hash cut into eight folders of 16 letters, then the whole text. *)
Theorem C01_path_exact : forall h, length h = 64 ->
  exists folders, length folders = 8 /\ Forall (fun f => length f = 16) folders /\
    concat folders = hash_string h /\ hash_path h = concat (map (fun f => f ++ [x2f]) folders) ++ hash_string h.
Proof. exact hash_path_exact. Qed.
Print Assumptions C01_path_exact.

Example C01_case : exists h, FromBytes (s2b "abc") = Ok h /\ length h = 64 /\
  FromString (hash_string h) = Ok h /\
  firstn 34 (hash_path h) = s2b "ddaf35a193617aba/cc417349ae204131/".
Proof. exists (sha512 (s2b "abc")). vm_compute. auto. Qed.

(** ** C02 *)

(** The adapter is not injective: every input that is not 64 bytes long has the
    same hash as its own digest. *)
Theorem C02_refuted : forall x, length x <> 64 ->
  sha512 x <> x /\ FromBytes x = FromBytes (sha512 x).
Proof. exact from_bytes_self_collision. Qed.
Print Assumptions C02_refuted.

(** What remains: inputs of the same 64-byteness with equal hashes are equal or
    are a SHA-512 collision. *)
Theorem C02_injective_partial : forall x y,
  (length x = 64 <-> length y = 64) -> FromBytes x = FromBytes y -> x = y \/ sha_collision x y.
Proof. exact FromBytes_inj_same. Qed.
Print Assumptions C02_injective_partial.

(** And in general the listed coincidences are the only ones. *)
Theorem C02_coincidences_partial : forall x y, FromBytes x = FromBytes y -> x = y \/ hash_coincidence x y.
Proof. exact FromBytes_inj. Qed.
Print Assumptions C02_coincidences_partial.

Example C02_case : length (s2b "abc") <> 64 /\ FromBytes (s2b "abc") = FromBytes (sha512 (s2b "abc")) /\
  (length (s2b "abc") = 64 <-> length (s2b "abd") = 64) /\ FromBytes (s2b "abc") <> FromBytes (s2b "abd").
Proof. vm_compute. intuition discriminate. Qed.

(** ** C03 *)

Theorem C03_build : forall data, data <> [] ->
  exists t k,
    hashtree_of_blocks data = Ok t /\
    smallest_pow2 (length data) (ht_length t) k /\
    ht_height t = k + 1 /\
    Forall (fun l => exists h, l = LLeaf h) (ht_block_leaves t) /\
    leaf_hashes t = map from_bytes data ++ repeat (sha512 []) (ht_length t - length data) /\
    MerkleRoot (leaf_hashes t) (ht_head t).
Proof. exact build_tree. Qed.
Print Assumptions C03_build.

(** The excluded case: an empty non-nil list of blocks crashes the builder. *)
Theorem C03_empty_panics : builder_now (Some []) None = Panic.
Proof. exact build_empty_panics. Qed.
Print Assumptions C03_empty_panics.
(** The builder makes the tree of the blocks it was given, whether or not it was given the
    JSON of a tree; without blocks it makes the tree of the JSON; without both it fails. *)
Theorem C03_builder : (forall b js, builder_now (Some b) js = hashtree_of_blocks b) /\
  (forall j, builder_now None (Some j) = hashtree_of_json j) /\ builder_now None None = Err.
Proof. repeat split. Qed.
Print Assumptions C03_builder.

Example C03_case : exists t, hashtree_of_blocks (map s2b ["a"; "b"; "c"]%string) = Ok t /\ ht_length t = 4 /\ ht_height t = 3.
Proof. eexists. split; [reflexivity|]. vm_compute. auto. Qed.

(** ** C04 *)

Theorem C04_rebuild : forall data t, hashtree_of_blocks data = Ok t ->
  leaves_hashtree (c_leaves (ht_compact t)) = Ok t.
Proof. exact compact_rebuild. Qed.
Print Assumptions C04_rebuild.

Theorem C04_compact_json : forall data t, hashtree_of_blocks data = Ok t ->
  compact_of_json (json_of_compact (ht_compact t)) = Ok (ht_compact t).
Proof. exact built_compact_json. Qed.
Print Assumptions C04_compact_json.

Theorem C04_tree_json : forall data t, hashtree_of_blocks data = Ok t ->
  hashtree_of_json (json_of_hashtree t) = Ok t.
Proof. exact built_tree_json. Qed.
Print Assumptions C04_tree_json.

Example C04_case : exists t, hashtree_of_blocks (map s2b ["a"; "b"; "c"]%string) = Ok t.
Proof. eexists. reflexivity. Qed.

(** ** C05 *)

Theorem C05_head_commits : forall d1 d2 t u,
  hashtree_of_blocks d1 = Ok t -> hashtree_of_blocks d2 = Ok u ->
  ht_length t = ht_length u -> ht_head t = ht_head u ->
  leaf_hashes t = leaf_hashes u \/
  exists x y, In x (tree_inputs t) /\ In y (tree_inputs u) /\
    length x = 128 /\ length y = 128 /\ sha_collision x y.
Proof. exact built_commit. Qed.
Print Assumptions C05_head_commits.

Example C05_case : exists t u,
  hashtree_of_blocks (map s2b ["a"; "b"; "c"]%string) = Ok t /\
  hashtree_of_blocks (map s2b ["a"; "b"; "c"; ""]%string) = Ok u /\
  ht_length t = ht_length u /\ ht_head t = ht_head u.
Proof. eexists. eexists. split; [reflexivity|]. split; [reflexivity|]. split; reflexivity. Qed.

(** ** C06 *)

(** A list whose length is not a power of two collides with the list extended by
    an empty block ... *)
Theorem C06_padding_refuted : forall data,
  data <> [] -> (forall k, 1 <= k -> length data <> 2 ^ k) ->
  exists t, hashtree_of_blocks data = Ok t /\ hashtree_of_blocks (data ++ [[]]) = Ok t.
Proof. exact padding_refuted. Qed.
Print Assumptions C06_padding_refuted.

(** ... and any four blocks collide with two blocks. *)
Theorem C06_inner_refuted : forall a b c d,
  exists p q t u,
    hashtree_of_blocks [a; b; c; d] = Ok t /\ hashtree_of_blocks [p; q] = Ok u /\ ht_head t = ht_head u.
Proof. exact inner_refuted. Qed.
Print Assumptions C06_inner_refuted.

(** Missing for the full statement: lists of different lengths (refuted above). *)
Theorem C06_same_length_partial : forall d1 d2 t u,
  hashtree_of_blocks d1 = Ok t -> hashtree_of_blocks d2 = Ok u ->
  length d1 = length d2 -> ht_head t = ht_head u ->
  d1 = d2 \/
  (exists i x y, nth_error d1 i = Some x /\ nth_error d2 i = Some y /\ hash_coincidence x y) \/
  (exists x y, In x (tree_inputs t) /\ In y (tree_inputs u) /\
    length x = 128 /\ length y = 128 /\ sha_collision x y).
Proof. exact same_length_blocks. Qed.
Print Assumptions C06_same_length_partial.

Example C06_case : let d := map s2b ["a"; "b"; "c"]%string in
  d <> [] /\ d <> d ++ [[]] /\ forall k, 1 <= k -> length d <> 2 ^ k.
Proof. split; [discriminate|split; [discriminate|exact three_not_pow2]]. Qed.

(** ** C07 *)

Theorem C07_order_partial : forall data data' t,
  hashtree_of_blocks data = Ok t ->
  (forall x y, In x data -> In y data -> from_bytes x = from_bytes y -> x = y) ->
  ((forall k, 1 <= k -> length data <> 2 ^ k) -> ~ In (sha512 []) (map from_bytes data)) ->
  Permutation data data' ->
  ht_order t data' = Ok data.
Proof. exact order_permutation. Qed.
Print Assumptions C07_order_partial.

(** Without the condition on the empty block: every padded tree with an empty
    block among its data rejects that data. *)
Theorem C07_order_refuted : forall data, In [] data -> (forall k, 1 <= k -> length data <> 2 ^ k) ->
  exists t, hashtree_of_blocks data = Ok t /\ ht_order t data = Err.
Proof. exact order_rejects_own_data. Qed.
Print Assumptions C07_order_refuted.

(** Foreign data is rejected: what Order returns consists of the given data only. *)
Theorem C07_order_sound : forall t data out, ht_order t data = Ok out ->
  length out = length data /\ Forall (fun d => In d data /\ In (from_bytes d) (leaf_hashes t)) out.
Proof. exact order_sound. Qed.
Print Assumptions C07_order_sound.

Example C07_case : exists t, hashtree_of_blocks (map s2b ["a"; "b"; "c"]%string) = Ok t /\
  ht_order t (map s2b ["c"; "a"; "b"]%string) = Ok (map s2b ["a"; "b"; "c"]%string) /\
  In [] (map s2b ["a"; ""; "c"]%string).
Proof. eexists. split; [reflexivity|]. split; [vm_compute; reflexivity|cbn; auto]. Qed.

(** ** C08 *)

(** Any head at all is accepted over any two leaves. *)
Theorem C08_refuted : forall h hl hr, length h = 64 -> length hl = 64 -> length hr = 64 ->
  h <> from_bytes (hl ++ hr) ->
  exists j t, hashtree_of_json j = Ok t /\ ht_head t = h /\ leaf_hashes t = [hl; hr] /\
    ~ MerkleRoot (leaf_hashes t) (ht_head t).
Proof. exact json_inconsistent. Qed.
Print Assumptions C08_refuted.

(** A compact form is rebuilt from its leaves when blocks and buckets are read
    back; then the head is right whatever head the JSON claims. *)
Theorem C08_rebuilt_consistent_partial : forall hs k t,
  Forall (fun h => length h = 64) hs -> length hs = 2 ^ S k ->
  leaves_hashtree (map LLeaf hs) = Ok t -> leaf_hashes t = hs /\ MerkleRoot hs (ht_head t).
Proof. exact rebuilt_consistent. Qed.
Print Assumptions C08_rebuilt_consistent_partial.

(** Rebuilding crashes exactly when the number of leaves is not a power of two
    (at least 2); in particular a decoded compact tree without leaves makes the
    program recurse without end. *)
Theorem C08_rebuild_panics : forall ls,
  (forall k, 1 <= k -> length ls <> 2 ^ k) <-> leaves_hashtree ls = Panic.
Proof. exact rebuild_panics. Qed.
Print Assumptions C08_rebuild_panics.

Example C08_case : let h := sha512 (s2b "head") in let l := sha512 (s2b "l") in
  length h = 64 /\ length l = 64 /\ h <> from_bytes (l ++ l) /\
  leaves_hashtree [] = Panic /\ (exists t, leaves_hashtree (map LLeaf [l; h; l; l]) = Ok t).
Proof.
  repeat split; try (vm_compute; reflexivity).
  - vm_compute. discriminate.
  - eexists. reflexivity.
Qed.
