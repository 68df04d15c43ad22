(** Independent specifications for hashing and hash trees. *)
From Verif Require Import Base Sha512 HashModel HashTreeModel.

(** An explicit SHA-512 collision: two given different inputs, same digest. *)
Definition sha_collision (x y : bytes) : Prop := x <> y /\ sha512 x = sha512 y.

(** The only ways in which two different inputs can get the same hash from the
    adapter: a SHA-512 collision, or one of them is the 64-byte digest of the
    other. *)
Definition hash_coincidence (x y : bytes) : Prop :=
  x <> y /\
  (sha512 x = sha512 y \/ (length y = 64 /\ y = sha512 x) \/ (length x = 64 /\ x = sha512 y)).

(** [MerkleRoot ls h]: [h] is the root of the perfect binary hash tree over the
    list of leaf hashes [ls]. *)
Inductive MerkleRoot : list hash -> hash -> Prop :=
| MR_leaf : forall h, MerkleRoot [h] h
| MR_node : forall a b x y,
    length a = length b -> MerkleRoot a x -> MerkleRoot b y ->
    MerkleRoot (a ++ b) (from_bytes (x ++ y)).

(** The strings that are hashed to compute the inner nodes of a tree. *)
Fixpoint node_inputs (x : leaf) : list bytes :=
  match x with
  | LLeaf _ => []
  | LNode _ l r => (leaf_head l ++ leaf_head r) :: node_inputs l ++ node_inputs r
  end.
Definition tree_inputs (t : hashtree) : list bytes :=
  (leaf_head (ht_left t) ++ leaf_head (ht_right t)) ::
  node_inputs (ht_left t) ++ node_inputs (ht_right t).

(** The hashes at the leaves, left to right. *)
Definition leaf_hashes (t : hashtree) : list hash := map leaf_head (ht_block_leaves t).

(** [m] is the smallest power of two with exponent at least one that is at least [n]. *)
Definition smallest_pow2 (n m k : nat) : Prop :=
  1 <= k /\ m = 2 ^ k /\ n <= m /\ forall j, 1 <= j -> n <= 2 ^ j -> m <= 2 ^ j.
