(** Properties of objects of different kinds (C114). *)
From Coq Require Import Lia.
From Verif Require Import Base HashModel HashSpec SignModel EntitiesModel PiastresModel PiastresSpec BucketModel StoreModel IdentityModel KindSpec KindProofs ToyCurve.

(** What Save writes is of the kind of the object and of the kinds of its parts: objects of
    two kinds with one hash do not overwrite each other. *)
Theorem C114_apart_partial : forall C : Curve,
  (forall x, writes_only [KLock] (lock_save x)) /\ (forall x, writes_only [KLock; KBill] (bill_save x)) /\
  (forall x, writes_only [KLock; KBill; KGenesis] (genesis_save x)) /\ (forall x, writes_only [KAddress] (address_save x)) /\
  (forall x : expense, writes_only [KLock; KBill; KExpense] (expense_save x)) /\
  (forall x : transaction, writes_only [KLock; KBill; KExpense; KTrx] (trx_save x)) /\
  (forall x : block, writes_only [KLock; KBill; KExpense; KTrx; KBlock] (block_save x)) /\
  (forall x : mined_block, writes_only [KLock; KBill; KExpense; KTrx; KBlock; KMBlock] (mblock_save x)) /\
  (forall x : chain_link, writes_only [KLock; KBill; KExpense; KTrx; KBlock; KLink] (link_save x)) /\
  (forall x : mined_link, writes_only [KLock; KBill; KExpense; KTrx; KBlock; KLink; KMLink] (mlink_save x)).
Proof. exact @kinds_apart. Qed.
Print Assumptions C114_apart_partial.
(** The full claim fails: an object with one part has the hash of the part - locks and keys,
    transactions and expenses, addresses or buckets, buckets and files, statements and entries. *)
Theorem C114_refuted : forall C : Curve,
  (forall now k created, hash64 k -> exists l, lock_now now [k] created = Ok l /\ lk_hash l = k) /\
  (forall now (e : expense) created, hash64 (ex_hash e) -> exists t, transaction_now now None None [e] created = Ok t /\ tx_hash t = ex_hash e) /\
  (forall now a created, hash64 (ad_hash a) -> exists t : @transaction C, transaction_now now (Some a) None [] created = Ok t /\ tx_hash t = ad_hash a) /\
  (forall now h created, hash64 h -> exists t : @transaction C, transaction_now now None (Some h) [] created = Ok t /\ tx_hash t = h) /\
  (forall now f created, hash64 (bf_hash f) -> exists b, bucket_now now [f] created = Ok b /\ bu_hash b = bf_hash f) /\
  (forall now e created, hash64 (en_hash e) -> (exists s, statement_now now [e] [] created = Ok s /\ sm_hash s = en_hash e) /\
     (exists s, statement_now now [] [e] created = Ok s /\ sm_hash s = en_hash e)).
Proof.
  intro C. split; [|split; [|split; [|split; [|split]]]].
  - intros now k created H. destruct (one_key now k created H) as (l & L & E & _). exists l. split; assumption.
  - exact one_fee.
  - exact one_address.
  - exact one_bucket.
  - exact one_file.
  - exact one_entry.
Qed.
Print Assumptions C114_refuted.
(** Every lock has the hash of an address. *)
Theorem C114_refuted_address : forall now keys created l now' created', lock_now now keys created = Ok l ->
  exists a, address_now now' None keys None created' = Ok a /\ ad_hash a = lk_hash l.
Proof. exact lock_address. Qed.
Print Assumptions C114_refuted_address.
(** Every block and every link whose mining is a positive number has the hash of a bill of that amount. *)
Theorem C114_refuted_bill : forall C : Curve,
  (forall now (b : block) n created m now' created', hash64 (bk_hash b) -> (0 < n)%N -> mined_block_now now (Some b) (itoa_u64 n) created = Ok m ->
     exists l x, lock_now now' [bk_hash b] created' = Ok l /\ bill_now now' (Some l) n created' = Ok x /\ bl_hash x = mb_hash m) /\
  (forall now (k : chain_link) n created m now' created', hash64 (ln_hash k) -> (0 < n)%N -> mined_link_now now (Some k) (itoa_u64 n) created = Ok m ->
     exists l x, lock_now now' [ln_hash k] created' = Ok l /\ bill_now now' (Some l) n created' = Ok x /\ bl_hash x = ml_hash m).
Proof. intro C. split; [exact mined_bill|exact mined_link_bill]. Qed.
Print Assumptions C114_refuted_bill.
(** Every link behind a block has the hash of that block, mined with some text. *)
Theorem C114_refuted_link : forall (C : Curve) now (b next : block) i created l now' created', link_now now (Some (bk_hash b)) (Some next) i created = Ok l ->
  exists m, mined_block_now now' (Some b) (bk_hash next ++ itoa_u64 i) created' = Ok m /\ mb_hash m = ln_hash l.
Proof. exact @link_mined. Qed.
Print Assumptions C114_refuted_link.
Definition case_mined_block : @block toy :=
  let k := repeat x07 64 in Block (Immutable k 0) (Genesis (Immutable k 0) (Bill (Immutable k 0) (Lock (Immutable k 0) [k]) 1) 1 (SpecFloat.S754_zero false) 1) 0 [].
(** a key is the hash of its lock, of an address and of a transaction; a block mined with 7 has the hash of a bill of 7 *)
Example C114_case :
  let k := repeat x07 64 in
  lock_now 5 [k] None = Ok (Lock (Immutable k 5) [k]) /\ address_now 6 None [k] None None = Ok (Address (Immutable k 6) None [k] None) /\
  (exists t : @transaction toy, transaction_now 7 None (Some k) [] None = Ok t /\ tx_hash t = k) /\
  forall m, mined_block_now 8 (Some case_mined_block) (itoa_u64 7) None = Ok m -> exists l x, lock_now 9 [bk_hash case_mined_block] None = Ok l /\ bill_now 9 (Some l) 7 None = Ok x /\ bl_hash x = mb_hash m.
Proof.
  cbv zeta. split; [vm_compute; reflexivity|]. split; [vm_compute; reflexivity|].
  split; [apply one_bucket; apply repeat_length|].
  intro m. apply (proj1 (C114_refuted_bill toy)); [|lia]. unfold hash64. vm_compute. reflexivity.
Qed.
