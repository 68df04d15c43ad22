(** Objects of different kinds with the same hash. *)
From Coq Require Import Lia ZifyBool ZifyNat ZifyN.
From Verif Require Import Base BaseFacts HashModel HashSpec HashProofs SignModel EntitiesModel FloatModel PiastresModel PiastresSpec PiastresProofs
  FileModel BucketModel BucketSpec BucketProofs StoreModel LedgerProofs IdentityModel KindSpec.

Lemma from_one : forall h, hash64 h -> from_multi [h] = h.
Proof. intros h H. unfold from_multi. cbn [concat]. rewrite app_nil_r. apply from_bytes_64. exact H. Qed.

Section WithCurve.
Context {C : Curve}.

(** an object with a single part has the hash of the part *)
Lemma one_key : forall now k created, hash64 k -> exists l, lock_now now [k] created = Ok l /\ lk_hash l = k /\ lk_keys l = [k].
Proof.
  intros now k created H. eexists. split; [apply lock_now_iff; split; [discriminate|split; [|reflexivity]]|].
  - constructor; [intros []|constructor].
  - split; [apply from_one; exact H|reflexivity].
Qed.
Lemma one_fee : forall now (e : expense) created, hash64 (ex_hash e) -> exists t, transaction_now now None None [e] created = Ok t /\ tx_hash t = ex_hash e.
Proof.
  intros now e created H. eexists. split; [apply transaction_now_iff; split; [right; right; discriminate|reflexivity]|].
  cbn [tx_hash tx_im im_hash map opt_list app]. apply from_one. exact H.
Qed.
Lemma one_address : forall now a created, hash64 (ad_hash a) -> exists t : @transaction C, transaction_now now (Some a) None [] created = Ok t /\ tx_hash t = ad_hash a.
Proof.
  intros now a created H. eexists. split; [apply transaction_now_iff; split; [left; discriminate|reflexivity]|].
  cbn [tx_hash tx_im im_hash map opt_list app]. apply from_one. exact H.
Qed.
Lemma one_bucket : forall now h created, hash64 h -> exists t : @transaction C, transaction_now now None (Some h) [] created = Ok t /\ tx_hash t = h.
Proof.
  intros now h created H. eexists. split; [apply transaction_now_iff; split; [right; left; discriminate|reflexivity]|].
  cbn [tx_hash tx_im im_hash map opt_list app]. apply from_one. exact H.
Qed.
Lemma one_file : forall now f created, hash64 (bf_hash f) -> exists b, bucket_now now [f] created = Ok b /\ bu_hash b = bf_hash f.
Proof.
  intros now f created H. eexists. split; [apply bucket_now_iff; split; [discriminate|reflexivity]|].
  cbn [bu_hash bu_im im_hash map]. apply from_one. exact H.
Qed.
Lemma one_entry : forall now e created, hash64 (en_hash e) ->
  (exists s, statement_now now [e] [] created = Ok s /\ sm_hash s = en_hash e) /\ (exists s, statement_now now [] [e] created = Ok s /\ sm_hash s = en_hash e).
Proof.
  intros now e created H. unfold statement_now. cbn [map app]. rewrite !FromMultiBytes_ok. cbn [rbind]. rewrite !immutable_now_some. cbn [rbind].
  split; eexists; (split; [reflexivity|]); cbn [sm_hash sm_im im_hash]; apply from_one; exact H.
Qed.
(** every lock has the hash of an address *)
Lemma lock_address : forall now keys created l now' created', lock_now now keys created = Ok l ->
  exists a, address_now now' None keys None created' = Ok a /\ ad_hash a = lk_hash l.
Proof.
  intros now keys created l now' created' H. apply lock_now_iff in H as (N & _ & ->). eexists. split; [apply address_now_iff; split; [right; left; exact N|reflexivity]|].
  cbn [ad_hash ad_im im_hash opt_list app lk_hash lk_im]. rewrite app_nil_r. reflexivity.
Qed.
(** every block mined with a number has the hash of a bill, and so has every link *)
Lemma numbered_bill : forall now h n created, hash64 h -> (0 < n)%N ->
  exists l b, lock_now now [h] created = Ok l /\ bill_now now (Some l) n created = Ok b /\ bl_hash b = from_multi [h; itoa_u64 n].
Proof.
  intros now h n created H P. destruct (one_key now h created H) as (l & L & E & _). exists l. eexists. split; [exact L|].
  split; [apply bill_now_iff; exists l; split; [reflexivity|split; [exact P|reflexivity]]|]. cbn [bl_hash bl_im im_hash]. rewrite E. reflexivity.
Qed.
Lemma mined_bill : forall now (b : @block C) n created m now' created', hash64 (bk_hash b) -> (0 < n)%N -> mined_block_now now (Some b) (itoa_u64 n) created = Ok m ->
  exists l x, lock_now now' [bk_hash b] created' = Ok l /\ bill_now now' (Some l) n created' = Ok x /\ bl_hash x = mb_hash m.
Proof.
  intros now b n created m now' created' H P M. destruct (numbered_bill now' _ n created' H P) as (l & x & L & X & E).
  exists l, x. apply mined_block_now_iff in M as (b' & B & ->). injection B as <-. repeat (split; [assumption|]). exact E.
Qed.
Lemma mined_link_bill : forall now (k : @chain_link C) n created m now' created', hash64 (ln_hash k) -> (0 < n)%N -> mined_link_now now (Some k) (itoa_u64 n) created = Ok m ->
  exists l x, lock_now now' [ln_hash k] created' = Ok l /\ bill_now now' (Some l) n created' = Ok x /\ bl_hash x = ml_hash m.
Proof.
  intros now b n created m now' created' H P M. destruct (numbered_bill now' _ n created' H P) as (l & x & L & X & E).
  exists l, x. apply mined_link_now_iff in M as (b' & B & ->). injection B as <-. repeat (split; [assumption|]). exact E.
Qed.
(** every link behind a block has the hash of a mined block *)
Lemma link_mined : forall now (b next : @block C) i created l now' created', link_now now (Some (bk_hash b)) (Some next) i created = Ok l ->
  exists m, mined_block_now now' (Some b) (bk_hash next ++ itoa_u64 i) created' = Ok m /\ mb_hash m = ln_hash l.
Proof.
  intros now b next i created l now' created' H. apply link_now_iff in H as (p & n & P & N & ->). injection P as <-. injection N as <-. eexists.
  split; [apply mined_block_now_iff; eexists; split; reflexivity|]. cbn [mb_hash mb_im ln_hash ln_im im_hash]. unfold from_multi. cbn [concat]. rewrite !app_nil_r. reflexivity.
Qed.

(** *** The stores keep kinds apart *)
Lemma only_list : forall l a, only (fun k => In k l) a -> writes_only l a. Proof. intros l a H s k n N. apply H. exact N. Qed.
Section Kinds.
Variable l : list kind.
Lemma kind_lock : In KLock l -> forall x, only (fun k => In k l) (lock_save x).
Proof. intros H x. unfold lock_save. apply only_unless, only_lift. intro. apply only_tr_save. exact H. Qed.
Lemma kind_bill : In KLock l -> In KBill l -> forall x, only (fun k => In k l) (bill_save x).
Proof. intros A H x. unfold bill_save. apply only_unless, only_seq; [apply kind_lock; exact A|]. apply only_lift. intro. apply only_tr_save. exact H. Qed.
Lemma kind_expense : In KLock l -> In KBill l -> In KExpense l -> forall x : expense, only (fun k => In k l) (expense_save x).
Proof.
  intros A B H x. unfold expense_save. cbv zeta. apply only_unless. repeat apply only_seq.
  - apply only_each. intro. apply kind_bill; assumption.
  - apply kind_bill; assumption.
  - apply only_each_opt. intro. apply kind_bill; assumption.
  - apply only_lift. intro. apply only_tr_save. exact H.
Qed.
Lemma kind_trx : In KLock l -> In KBill l -> In KExpense l -> In KTrx l -> forall x : transaction, only (fun k => In k l) (trx_save x).
Proof. intros A B D H x. unfold trx_save. apply only_unless, only_seq; [apply only_each; intro; apply kind_expense; assumption|]. apply only_lift. intro. apply only_tr_save. exact H. Qed.
Lemma kind_block : In KLock l -> In KBill l -> In KExpense l -> In KTrx l -> In KBlock l -> forall x : block, only (fun k => In k l) (block_save x).
Proof. intros A B D E H x. unfold block_save. apply only_unless, only_seq; [apply only_each; intro; apply kind_trx; assumption|]. apply only_lift. intro. apply only_tr_save. exact H. Qed.
Lemma kind_mblock : In KLock l -> In KBill l -> In KExpense l -> In KTrx l -> In KBlock l -> In KMBlock l -> forall x : mined_block, only (fun k => In k l) (mblock_save x).
Proof. intros A B D E F H x. unfold mblock_save. apply only_unless, only_seq; [apply kind_block; assumption|]. apply only_lift. intro. apply only_tr_save. exact H. Qed.
Lemma kind_link : In KLock l -> In KBill l -> In KExpense l -> In KTrx l -> In KBlock l -> In KLink l -> forall x : chain_link, only (fun k => In k l) (link_save x).
Proof. intros A B D E F H x. unfold link_save. apply only_unless, only_seq; [apply kind_block; assumption|]. apply only_lift. intro. apply only_tr_save. exact H. Qed.
Lemma kind_mlink : In KLock l -> In KBill l -> In KExpense l -> In KTrx l -> In KBlock l -> In KLink l -> In KMLink l -> forall x : mined_link, only (fun k => In k l) (mlink_save x).
Proof. intros A B D E F G H x. unfold mlink_save. apply only_unless, only_seq; [apply kind_link; assumption|]. apply only_lift. intro. apply only_tr_save. exact H. Qed.
End Kinds.
Lemma kinds_apart :
  (forall x, writes_only [KLock] (lock_save x)) /\ (forall x, writes_only [KLock; KBill] (bill_save x)) /\
  (forall x, writes_only [KLock; KBill; KGenesis] (genesis_save x)) /\ (forall x, writes_only [KAddress] (address_save x)) /\
  (forall x : expense, writes_only [KLock; KBill; KExpense] (expense_save x)) /\
  (forall x : transaction, writes_only [KLock; KBill; KExpense; KTrx] (trx_save x)) /\
  (forall x : block, writes_only [KLock; KBill; KExpense; KTrx; KBlock] (block_save x)) /\
  (forall x : mined_block, writes_only [KLock; KBill; KExpense; KTrx; KBlock; KMBlock] (mblock_save x)) /\
  (forall x : chain_link, writes_only [KLock; KBill; KExpense; KTrx; KBlock; KLink] (link_save x)) /\
  (forall x : mined_link, writes_only [KLock; KBill; KExpense; KTrx; KBlock; KLink; KMLink] (mlink_save x)).
Proof.
  repeat apply conj; intro x; apply only_list.
  - apply kind_lock; cbn; tauto.
  - apply kind_bill; cbn; tauto.
  - intros s k n N. unfold genesis_save. destruct (genesis_retrieve (fs_disk s)); [reflexivity| |reflexivity].
    refine (only_seq (fun k => In k [KLock; KBill; KGenesis]) _ _ _ _ s k n N); [apply kind_bill; cbn; tauto|]. apply only_lift. intro. apply only_tr_save. cbn. tauto.
  - unfold address_save. apply only_lift. intro. apply only_write. cbn. tauto.
  - apply kind_expense; cbn; tauto.
  - apply kind_trx; cbn; tauto.
  - apply kind_block; cbn; tauto.
  - apply kind_mblock; cbn; tauto.
  - apply kind_link; cbn; tauto.
  - apply kind_mlink; cbn; tauto.
Qed.
End WithCurve.
