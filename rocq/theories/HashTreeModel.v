(** Model of libs/hashtree. *)
From Verif Require Import Base Sha512 HashModel.

(** libs/hashtree/leaf.go:9-12 [leaf] with a nil [Pt] ([LLeaf]) or a parent leaf
    ([LNode]); libs/hashtree/parentleaf.go:9-12 [parentLeaf] is the pair (left,
    right).  Leaves are never nil here (the JSON constructors panic on nil). *)
Inductive leaf : Type :=
| LLeaf (h : hash)
| LNode (h : hash) (l r : leaf).

(** libs/hashtree/leaf.go:66-68 Head *)
Definition leaf_head (x : leaf) : hash :=
  match x with LLeaf h => h | LNode h _ _ => h end.

(** libs/hashtree/hashtree.go:12-15 *)
Record hashtree := HashTree { ht_head : hash; ht_left : leaf; ht_right : leaf }.

(** libs/hashtree/compact.go:9-12 *)
Record compact := Compact { c_head : hash; c_leaves : list leaf }.

(** libs/hashtree/block.go:47-50 isLengthPowerForTwo *)
Definition is_pow2 (n : nat) : bool :=
  negb (Nat.eqb n 0) && (N.land (N.of_nat n) (N.of_nat n - 1) =? 0)%N.

(** libs/hashtree/block.go:52-66 resizeToNextPowerOfTwo.  The float64
    expression [Pow(2, Ceil(Log(n)/Log(2)))] is replaced by the exact 2^ceil(log2 n);
    PaddingModel.v has the float64 computation, C03_padding the equality up to 2^40. *)
Definition next_pow2 (n : nat) : nat := Nat.pow 2 (Nat.log2_up n).

Definition resize (l : list hash) : list hash :=
  if is_pow2 (length l) then l
  else l ++ repeat (from_bytes []) (next_pow2 (length l) - length l).

(** libs/hashtree/block.go:14-35 createBlockFromData *)
Definition block_of_data (data : list bytes) : list hash :=
  let data := if Nat.leb (length data) 1 then data ++ [[]] else data in
  resize (map from_bytes data).

(** libs/hashtree/block.go:69-77 Leaves *)
Definition block_leaves (l : list hash) : list leaf := map LLeaf l.

(** libs/hashtree/leaf.go:50-63 createChildLeaf and leaves.go:62-69: the new node *)
Definition child (l r : leaf) : leaf :=
  LNode (from_bytes (leaf_head l ++ leaf_head r)) l r.

(** libs/hashtree/leaves.go:52-73 createChildrenLeaves; with an odd number of
    leaves [obj.Lst[index+1]] is out of range *)
Fixpoint children (ls : list leaf) : res (list leaf) :=
  match ls with
  | [] => Ok []
  | [_] => Panic
  | l :: r :: ls => let! cs := children ls in Ok (child l r :: cs)
  end.

(** libs/hashtree/parentleaf.go:38-51 HashTree *)
Definition parent_hashtree (l r : leaf) : hashtree :=
  HashTree (from_bytes (leaf_head l ++ leaf_head r)) l r.

(** libs/hashtree/leaves.go:35-50 HashTree.  On an empty list the Go code
    recurses forever, which ends in a fatal stack overflow; it is modelled as
    [Panic].  [fuel] bounds the recursion depth; [HashTreeProofs.leaves_fuel]
    shows that [length ls] is always enough, so that the [O] case is never the
    reason of an outcome. *)
Fixpoint leaves_hashtree_f (fuel : nat) (ls : list leaf) : res hashtree :=
  match ls with
  | [] => Panic
  | [l; r] => Ok (parent_hashtree l r)
  | _ =>
      match fuel with
      | O => Panic
      | S fuel => let! cs := children ls in leaves_hashtree_f fuel cs
      end
  end.
Definition leaves_hashtree (ls : list leaf) : res hashtree :=
  leaves_hashtree_f (length ls) ls.

(** libs/hashtree/hashtree.go:50-58 createHashTreeFromBlocks *)
Definition hashtree_of_blocks (data : list bytes) : res hashtree :=
  leaves_hashtree (block_leaves (block_of_data data)).

(** libs/hashtree/leaf.go:81-92 Leaves, parentleaf.go:54-60 BlockLeaves *)
Fixpoint leaf_leaves (x : leaf) : list leaf :=
  match x with
  | LLeaf h => [LLeaf h]
  | LNode _ l r => leaf_leaves l ++ leaf_leaves r
  end.
Definition ht_block_leaves (t : hashtree) : list leaf :=
  leaf_leaves (ht_left t) ++ leaf_leaves (ht_right t).

(** libs/hashtree/leaf.go:95-111 Height *)
Fixpoint leaf_height (x : leaf) : nat :=
  match x with LLeaf _ => 0 | LNode _ l _ => S (leaf_height l) end.

(** libs/hashtree/hashtree.go:61-64 Height, 67-70 Length, 83-86 Compact *)
Definition ht_height (t : hashtree) : nat := leaf_height (ht_left t) + 2.
Definition ht_length (t : hashtree) : nat := length (ht_block_leaves t).
Definition ht_compact (t : hashtree) : compact := Compact (ht_head t) (ht_block_leaves t).

(** libs/hashtree/hashtree.go:91-100: the map from hash text to data (a later
    entry replaces an earlier one) *)
Definition order_map (data : list bytes) : list (bytes * bytes) :=
  fold_left (fun m d => aput (hash_string (from_bytes d)) d m) data [].

(** libs/hashtree/hashtree.go:102-113 *)
Fixpoint order_loop (m : list (bytes * bytes)) (ls : list leaf) : list bytes :=
  match ls with
  | [] => []
  | l :: ls =>
      match aget bseq (hash_string (leaf_head l)) m with
      | Some d => d :: order_loop m ls
      | None => order_loop m ls
      end
  end.

(** libs/hashtree/hashtree.go:89-121 Order *)
Definition ht_order (t : hashtree) (data : list bytes) : res (list bytes) :=
  let out := order_loop (order_map data) (ht_block_leaves t) in
  if Nat.eqb (length out) (length data) then Ok out else Err.

(** ** JSON structures *)

(** libs/hashtree/json_leaf.go:4-7 and json_parentleaf.go:4-7; [JNil] is a nil
    [*JSONLeaf], [NNil] a nil [*JSONParentLeaf] *)
Inductive jleaf : Type :=
| JNil
| JLeaf (head : bytes) (node : jnode)
with jnode : Type :=
| NNil
| NNode (left right : jleaf).

(** libs/hashtree/json_hashtree.go:4-7, json_compact.go:4-7 *)
Record jhashtree := JHashTree { jt_head : bytes; jt_node : jnode }.
Record jcompact := JCompact { jc_head : bytes; jc_leaves : list jleaf }.

(** libs/hashtree/leaf.go:14-30 createLeafFromJSON and parentleaf.go:14-26
    createParentLeafFromJSON; a nil pointer is dereferenced *)
Fixpoint leaf_of_json (j : jleaf) : res leaf :=
  match j with
  | JNil => Panic
  | JLeaf head node =>
      let! h := from_string head in
      match node with
      | NNil => Ok (LLeaf h)
      | NNode l r =>
          let! l := leaf_of_json l in
          let! r := leaf_of_json r in
          Ok (LNode h l r)
      end
  end.

(** libs/hashtree/parentleaf.go:14-26 *)
Definition parent_of_json (j : jnode) : res (leaf * leaf) :=
  match j with
  | NNil => Panic
  | NNode l r =>
      let! l := leaf_of_json l in
      let! r := leaf_of_json r in
      Ok (l, r)
  end.

(** libs/hashtree/hashtree.go:27-39 createHashTreeFromJSON *)
Definition hashtree_of_json (j : jhashtree) : res hashtree :=
  let! h := from_string (jt_head j) in
  let! p := parent_of_json (jt_node j) in
  Ok (HashTree h (fst p) (snd p)).

(** libs/hashtree/compact.go:14-32 createCompactFromJSON *)
Definition compact_of_json (j : jcompact) : res compact :=
  let! h := from_string (jc_head j) in
  let! ls := rmapM leaf_of_json (jc_leaves j) in
  Ok (Compact h ls).

(** libs/hashtree/json_leaf.go:9-17, json_parentleaf.go:9-13 *)
Fixpoint json_of_leaf (x : leaf) : jleaf :=
  match x with
  | LLeaf h => JLeaf (hash_string h) NNil
  | LNode h l r => JLeaf (hash_string h) (NNode (json_of_leaf l) (json_of_leaf r))
  end.

(** libs/hashtree/json_hashtree.go:9-13 *)
Definition json_of_hashtree (t : hashtree) : jhashtree :=
  JHashTree (hash_string (ht_head t))
            (NNode (json_of_leaf (ht_left t)) (json_of_leaf (ht_right t))).

(** libs/hashtree/json_compact.go:9-19 *)
Definition json_of_compact (c : compact) : jcompact :=
  JCompact (hash_string (c_head c)) (map json_of_leaf (c_leaves c)).

(** libs/hashtree/builder.go:40-56 Now.  [blocks] / [js] are [None] when nil; the
    JSON input is given after the text has been parsed into the JSON structure. *)
Definition builder_now (blocks : option (list bytes)) (js : option jhashtree) : res hashtree :=
  match blocks, js with
  | Some b, _ => hashtree_of_blocks b
  | None, Some j => hashtree_of_json j
  | None, None => Err
  end.
