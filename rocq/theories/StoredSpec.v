(** What the stored documents (domain/transfers/piastres) say, member by member, stated without
    the decoders. *)
From Coq Require Import SpecFloat.
From Verif Require Import Base Sha512 HashModel HashTreeModel SignModel EntitiesModel FloatModel PiastresModel JsonModel FloatText MemJsonModel
  TransferModel MemberSpec GrammarSpec CalendarSpec DocumentSpec.
Local Open Scope N_scope.

(** ** Hashes *)
(** two hexadecimal digits, small or capital, for every byte *)
Inductive hex_text : bytes -> bytes -> Prop :=
| hex_none : hex_text [] []
| hex_more : forall a b x y s l, hexval a x -> hexval b y -> hex_text s l -> hex_text (a :: b :: s) (n2b (16 * x + y) :: l).
(** 64 bytes are the hash; everything else is hashed *)
Definition hash_text (s : bytes) (h : hash) : Prop :=
  exists b, hex_text s b /\ (length b = 64%nat /\ h = b \/ length b <> 64%nat /\ h = sha512 b).
Definition hash_of (vs : list json) (h : hash) : Prop := exists s, text_of vs s /\ hash_text s h.
Definition hashes_of (vs : list json) (hs : list hash) : Prop := exists ss, elements_of text_of vs ss /\ Forall2 hash_text ss hs.
(** a hash, or none where the text is empty *)
Definition maybe_hash_of (vs : list json) (o : option hash) : Prop :=
  exists s, text_of vs s /\ (s = [] /\ o = None \/ s <> [] /\ exists h, hash_text s h /\ o = Some h).

(** ** Hash trees *)
(** a leaf: a text, and two leaves below it unless there is no node *)
Inductive says_leaf : list json -> jleaf -> Prop :=
| leaf_none : forall js, points_to says_head js None -> says_leaf js JNil
| leaf_some : forall js x, points_to says_head js (Some x) -> says_leaf js x
with says_head : list json -> jleaf -> Prop :=
| head_is : forall js m h n, members_of js m -> member text_of "head" m h -> member says_node "node" m n -> says_head js (JLeaf h n)
with says_node : list json -> jnode -> Prop :=
| node_none : forall js, points_to says_pair js None -> says_node js NNil
| node_some : forall js x, points_to says_pair js (Some x) -> says_node js x
with says_pair : list json -> jnode -> Prop :=
| pair_is : forall js m l r, members_of js m -> member says_leaf "left" m l -> member says_leaf "right" m r -> says_pair js (NNode l r).
Definition says_compact (js : list json) (x : jcompact) : Prop := exists m, members_of js m /\
  member text_of "head" m (jc_head x) /\ member (elements_of says_leaf) "leaves" m (jc_leaves x).
(** the leaf with its texts read as hashes *)
Inductive leaf_means : jleaf -> leaf -> Prop :=
| means_leaf : forall s h, hash_text s h -> leaf_means (JLeaf s NNil) (LLeaf h)
| means_node : forall s h l r l' r', hash_text s h -> leaf_means l l' -> leaf_means r r' -> leaf_means (JLeaf s (NNode l r)) (LNode h l' r').
(** the hash of two hashes *)
Definition pair_hash (a b c : hash) : Prop := length (a ++ b) = 64%nat /\ c = a ++ b \/ length (a ++ b) <> 64%nat /\ c = sha512 (a ++ b).
(** the perfect tree over given leaves *)
Inductive grown : list leaf -> leaf -> Prop :=
| grown_one : forall x, grown [x] x
| grown_two : forall a b x y h, length a = length b -> grown a x -> grown b y -> pair_hash (leaf_head x) (leaf_head y) h -> grown (a ++ b) (LNode h x y).
Definition tree_over (ls : list leaf) (t : hashtree) : Prop := grown ls (LNode (ht_head t) (ht_left t) (ht_right t)) /\ (2 <= length ls)%nat.
(** the tree in a document is built from the leaves; its root in the document is only read *)
Definition tree_of (vs : list json) (t : hashtree) : Prop := exists x ls h,
  points_to says_compact vs (Some x) /\ hash_text (jc_head x) h /\ Forall2 leaf_means (jc_leaves x) ls /\ tree_over ls t.

(** ** Documents *)
Definition says_entity (m : list (bytes * json)) (i : immutable) : Prop :=
  member hash_of "hash" m (im_hash i) /\ member time_of "created_on" m (im_created i).
Definition says_tlock (js : list json) (t : tlock) : Prop := exists m, members_of js m /\ says_entity m (tl_im t) /\
  member hashes_of "pubkeys" m (tl_keys t).
Definition says_tbill (js : list json) (t : tbill) : Prop := exists m, members_of js m /\ says_entity m (tb_im t) /\
  member hash_of "lock" m (tb_lock t) /\ member number_of "amount" m (tb_amount t) /\ 0 < tb_amount t.
Definition says_tgenesis (js : list json) (t : tgenesis) : Prop := exists m, members_of js m /\ says_entity m (tg_im t) /\
  member hash_of "bill" m (tg_bill t) /\ member number_of "block_difficulty_base" m (tg_base t) /\
  member float_of "block_difficulty_increase_per_trx" m (tg_increase t) /\ member number_of "link_difficulty" m (tg_link t) /\
  0 < tg_base t /\ f_le_zero (tg_increase t) = false /\ 0 < tg_link t.
Definition says_ttrx (js : list json) (t : ttrx) : Prop := exists m, members_of js m /\ says_entity m (tt_im t) /\
  member maybe_hash_of "address" m (tt_address t) /\ member hashes_of "fees" m (tt_fees t) /\
  member maybe_hash_of "bucket" m (tt_bucket t) /\ ~ (tt_address t = None /\ tt_bucket t = None /\ tt_fees t = []).
Definition says_tmblock (js : list json) (t : tmblock) : Prop := exists m, members_of js m /\ says_entity m (tm_im t) /\
  member hash_of "block" m (tm_block t) /\ member text_of "mining" m (tm_mining t).
Definition says_tlink (js : list json) (t : tlink) : Prop := exists m, members_of js m /\ says_entity m (ti_im t) /\
  member hash_of "previous_link" m (ti_prev t) /\ member hash_of "next" m (ti_next t) /\ member number_of "index" m (ti_index t).
Definition says_tmlink (js : list json) (t : tmlink) : Prop := exists m, members_of js m /\ says_entity m (tn_im t) /\
  member hash_of "link" m (tn_link t) /\ member text_of "mining" m (tn_mining t).
Definition says_tchain (js : list json) (t : tchain) : Prop := exists m, members_of js m /\ says_entity m (tc_im t) /\
  member hash_of "genesis" m (tc_genesis t) /\ member hash_of "root" m (tc_root t) /\ member hash_of "head" m (tc_head t) /\
  member number_of "total" m (tc_total t) /\ 0 < tc_total t.
Definition says_tblock (js : list json) (t : tblock) : Prop := exists m, members_of js m /\ says_entity m (tk_im t) /\
  member tree_of "transactions" m (tk_trx t) /\ member number_of "amount" m (tk_amount t) /\
  member number_of "additional" m (tk_additional t) /\ 0 < tk_amount t.
Definition says_tstate (js : list json) (t : tstate) : Prop := exists m, members_of js m /\ says_entity m (ts_im t) /\
  member hash_of "chain" m (ts_chain t) /\ member hash_of "previous" m (ts_prev t) /\ member number_of "height" m (ts_height t) /\
  member tree_of "transactions" m (ts_trx t) /\ member number_of "amount" m (ts_amount t) /\ 0 < ts_height t /\ 0 < ts_amount t.
(** signatures: ring_of_string (C16) *)
Definition says_texpense {C : Curve} (js : list json) (t : texpense C) : Prop := exists m, members_of js m /\ says_entity m (te_im t) /\
  member hashes_of "from" m (te_from t) /\ member hash_of "to" m (te_to t) /\
  member (fun vs sigs => exists ss, elements_of text_of vs ss /\ Forall2 (fun s r => ring_of_string C s = Ok r) ss sigs) "signatures" m (te_sigs t) /\
  member maybe_hash_of "remaining" m (te_remaining t) /\ te_from t <> [] /\ te_sigs t <> [].

(** ** Documents that crash the reader: no tree, a leaf that is not there, a number of leaves that is no power of two *)
Inductive leaf_crash : jleaf -> Prop :=
| crash_nil : leaf_crash JNil
| crash_left : forall s h l r, hash_text s h -> leaf_crash l -> leaf_crash (JLeaf s (NNode l r))
| crash_right : forall s h l l' r, hash_text s h -> leaf_means l l' -> leaf_crash r -> leaf_crash (JLeaf s (NNode l r)).
Definition tree_crash (vs : list json) (_ : unit) : Prop :=
  points_to says_compact vs None \/
  exists x h, points_to says_compact vs (Some x) /\ hash_text (jc_head x) h /\
    ((exists pre y post ls, jc_leaves x = pre ++ y :: post /\ Forall2 leaf_means pre ls /\ leaf_crash y) \/
     (exists ls, Forall2 leaf_means (jc_leaves x) ls /\ forall k, (1 <= k)%nat -> length ls <> (2 ^ k)%nat)).
(** all other members are readable *)
Definition block_crash (js : list json) : Prop := exists m i n a, members_of js m /\ says_entity m i /\
  member tree_crash "transactions" m tt /\ member number_of "amount" m n /\ member number_of "additional" m a.
Definition state_crash (js : list json) : Prop := exists m i c p n a, members_of js m /\ says_entity m i /\
  member hash_of "chain" m c /\ member hash_of "previous" m p /\ member number_of "height" m n /\
  member tree_crash "transactions" m tt /\ member number_of "amount" m a.
