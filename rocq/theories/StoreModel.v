(** The repositories and services of domain/memory/piastres over those of
    domain/transfers/piastres, down to the files.

    Simplifications:
    - Every kind of object has its own file service, so that files are identified by
      kind and name.  (The repository has no composition root; the constructors take a
      file service each.  A file service maps different flat names to different files,
      see C28.)
    - Reading a file is reliable; a write can fail or be torn, see [fault].
    - The clock plays no role: every builder called here is given a creation time. *)
From Verif Require Import Base HashModel HashTreeModel SignModel EntitiesModel FloatModel PiastresModel
  JsonModel TimeModel FloatText MemJsonModel TransferModel FileModel.

Inductive kind := KLock | KBill | KExpense | KTrx | KAddress | KGenesis | KBlock | KMBlock | KLink | KMLink | KChain | KState.
Definition kind_eqb (a b : kind) : bool :=
  match a, b with
  | KLock, KLock | KBill, KBill | KExpense, KExpense | KTrx, KTrx | KAddress, KAddress | KGenesis, KGenesis
  | KBlock, KBlock | KMBlock, KMBlock | KLink, KLink | KMLink, KMLink | KChain, KChain | KState, KState => true
  | _, _ => false
  end.
Definition disk := kind -> bytes -> option bytes.
Definition upd (d : disk) (k : kind) (n c : bytes) : disk :=
  fun k' n' => if kind_eqb k k' && bseq n n' then Some c else d k' n'.

(** What happens to a write: it succeeds, the file cannot be opened, or only the first
    bytes reach the disk (possibly all of them) and an error is returned.  As every
    caller returns at once on an error without touching the disk, a crash of the
    process leaves the same disk as the corresponding failed write. *)
Inductive fault := Fine | Denied | Torn (n : nat).
(** the disk and the fate of the writes to come; beyond the list all are fine *)
Record fs := Fs { fs_disk : disk; fs_faults : list fault }.
Definition act := fs -> res unit * fs.

(** libs/file/file_disk_service.go:24-32 Save (ioutil.WriteFile truncates an existing file) *)
Definition write (k : kind) (n c : bytes) : act := fun s =>
  let d := fs_disk s in
  match fs_faults s with
  | [] => (Ok tt, Fs (upd d k n c) [])
  | Fine :: fl => (Ok tt, Fs (upd d k n c) fl)
  | Denied :: fl => (Err, Fs d fl)
  | Torn i :: fl => (Err, Fs (upd d k n (firstn i c)) fl)
  end.
(** [if err := a(); err != nil { return err }; b()] *)
Definition seq (a b : act) : act := fun s =>
  match a s with
  | (Ok _, s) => b s
  | r => r
  end.
Notation "a ;; b" := (seq a b) (at level 61, right associativity).
Definition done : act := fun s => (Ok tt, s).
(** [x, err := f(); if err != nil { return err }; k(x)] *)
Definition lift {A} (x : res A) (k : A -> act) : act := fun s =>
  match x with
  | Ok a => k a s
  | Err => (Err, s)
  | Panic => (Panic, s)
  end.
(** [_, err := retrieve(); if err == nil { return nil }; a()] *)
Definition unless {A} (r : disk -> res A) (a : act) : act := fun s =>
  match r (fs_disk s) with
  | Ok _ => (Ok tt, s)
  | Err => a s
  | Panic => (Panic, s)
  end.
(** [for _, x := range l { if err := f(x); err != nil { return err } }; return nil] *)
Fixpoint each {A} (f : A -> act) (l : list A) : act :=
  match l with
  | [] => done
  | x :: l => f x ;; each f l
  end.
(** [if x != nil { if err := f(x); err != nil { return err } }] *)
Definition each_opt {A} (f : A -> act) (o : option A) : act :=
  match o with Some x => f x | None => done end.

(** libs/file/file_disk_repository.go:21-29 Retrieve *)
Definition read (d : disk) (k : kind) (n : bytes) : res bytes :=
  match d k n with Some c => Ok c | None => Err end.
(** domain/transfers/piastres/*/repository.go Retrieve: read the file, then the adapter's
    json.Unmarshal and conversion *)
Definition tr_retrieve {T} (dec : list json -> res T) (k : kind) (d : disk) (n : bytes) : res T :=
  let! c := read d k n in unmarshal dec c.
(** domain/transfers/piastres/*/service.go Save *)
Definition tr_save {T} (enc : T -> res json) (k : kind) (n : bytes) (t : T) : act :=
  lift (marshal enc t) (write k n).

(** ** Locks *)
(** locks/adapter.go:26-35 *)
Definition lock_to_transfer (l : lock) : res tlock := tlock_now (lk_hash l) (lk_keys l) (im_created (lk_im l)).
(** locks/repository.go:26-35 *)
Definition lock_retrieve (h : hash) (d : disk) : res lock :=
  let! t := tr_retrieve d_tlock KLock d (hash_string h) in
  lock_now 0 (tl_keys t) (Some (im_created (tl_im t))).
(** locks/service.go:28-41 *)
Definition lock_save (l : lock) : act :=
  unless (lock_retrieve (lk_hash l)) (
  lift (lock_to_transfer l) (tr_save e_tlock KLock (hash_string (lk_hash l)))).

(** ** Bills *)
(** bills/adapter.go:22-28 *)
Definition bill_to_transfer (b : bill) : res tbill :=
  tbill_now (bl_hash b) (lk_hash (bl_lock b)) (bl_amount b) (im_created (bl_im b)).
(** bills/repository.go:30-45 *)
Definition bill_retrieve (h : hash) (d : disk) : res bill :=
  let! t := tr_retrieve d_tbill KBill d (hash_string h) in
  let! l := lock_retrieve (tb_lock t) d in
  bill_now 0 (Some l) (tb_amount t) (Some (im_created (tb_im t))).
(** bills/repository.go:48-60 RetrieveAll *)
Definition bills_retrieve (hs : list hash) (d : disk) : res (list bill) := rmapM (fun h => bill_retrieve h d) hs.
(** bills/service.go:32-51 *)
Definition bill_save (b : bill) : act :=
  unless (bill_retrieve (bl_hash b)) (
  lock_save (bl_lock b) ;;
  lift (bill_to_transfer b) (tr_save e_tbill KBill (hash_string (bl_hash b)))).

(** ** Genesis *)
(** The name of the file is an argument of NewRepository and NewService; as the only
    file of its kind its value plays no role. *)
Definition genesis_name : bytes := s2b "genesis".
(** genesis/adapter.go:22-41 *)
Definition genesis_to_transfer (g : genesis) : res tgenesis :=
  tgenesis_now (gn_hash g) (bl_hash (gn_bill g)) (gn_base g) (gn_increase g) (gn_link g) (im_created (gn_im g)).
(** genesis/repository.go:29-52 *)
Definition genesis_retrieve (d : disk) : res genesis :=
  let! t := tr_retrieve d_tgenesis KGenesis d genesis_name in
  let! b := bill_retrieve (tg_bill t) d in
  genesis_now 0 (tg_base t) (tg_increase t) (tg_link t) (Some b) (Some (im_created (tg_im t))).
(** genesis/service.go:34-52 *)
Definition genesis_save (g : genesis) : act := fun s =>
  match genesis_retrieve (fs_disk s) with
  | Ok _ => (Err, s)
  | Panic => (Panic, s)
  | Err => (bill_save (gn_bill g) ;; lift (genesis_to_transfer g) (tr_save e_tgenesis KGenesis genesis_name)) s
  end.

(** ** Addresses: the memory form is stored as it is *)
(** transactions/addresses/repository.go:25-38 *)
Definition address_retrieve (h : hash) (d : disk) : res address :=
  let! c := read d KAddress (hash_string h) in address_of_text c.
(** transactions/addresses/service.go:24-32 *)
Definition address_save (a : address) : act :=
  lift (address_to_text a) (write KAddress (hash_string (ad_hash a))).

Section WithCurve.
Context {C : Curve}.

(** ** Expenses *)
(** expenses/adapter.go:23-49 *)
Definition expense_to_transfer (e : expense) : res (texpense C) :=
  let c := ex_content e in
  texpense_now (ex_hash e) (map bl_hash (ct_from c)) (bl_hash (ct_to c)) (ex_sigs e)
    (option_map bl_hash (ct_remaining c)) (im_created (ct_im c)).
(** expenses/repository.go:33-72 *)
Definition expense_retrieve (h : hash) (d : disk) : res expense :=
  let! t := tr_retrieve d_texpense KExpense d (hash_string h) in
  let! from := bills_retrieve (te_from t) d in
  let! to := bill_retrieve (te_to t) d in
  let! rem := match te_remaining t with
              | Some r => let! b := bill_retrieve r d in Ok (Some (bl_lock b))
              | None => Ok None
              end in
  let! c := content_now 0 (bl_amount to) from (Some (bl_lock to)) rem (Some (im_created (te_im t))) in
  expense_now 0 (Some c) (Some (te_sigs t)).
(** expenses/repository.go:75-87 *)
Definition expenses_retrieve (hs : list hash) (d : disk) : res (list expense) :=
  rmapM (fun h => expense_retrieve h d) hs.
(** expenses/service.go:32-66 *)
Definition expense_save (e : expense) : act :=
  let c := ex_content e in
  unless (expense_retrieve (ex_hash e)) (
  each bill_save (ct_from c) ;;
  bill_save (ct_to c) ;;
  each_opt bill_save (ct_remaining c) ;;
  lift (expense_to_transfer e) (tr_save e_texpense KExpense (hash_string (ex_hash e)))).

(** ** Transactions *)
(** transactions/adapter.go:23-47: the address is not passed on *)
Definition trx_to_transfer (t : transaction) : res ttrx :=
  ttrx_now (tx_hash t) None (tx_bucket t) (map ex_hash (tx_fees t)) (im_created (tx_im t)).
(** transactions/repository.go:30-54: neither is it read *)
Definition trx_retrieve (h : hash) (d : disk) : res transaction :=
  let! t := tr_retrieve d_ttrx KTrx d (hash_string h) in
  let! fees := expenses_retrieve (tt_fees t) d in
  transaction_now 0 None (tt_bucket t) fees (Some (im_created (tt_im t))).
(** transactions/repository.go:57-69 *)
Definition trxs_retrieve (hs : list hash) (d : disk) : res (list transaction) := rmapM (fun h => trx_retrieve h d) hs.
(** transactions/service.go:32-53 *)
Definition trx_save (t : transaction) : act :=
  unless (trx_retrieve (tx_hash t)) (
  each expense_save (tx_fees t) ;;
  lift (trx_to_transfer t) (tr_save e_ttrx KTrx (hash_string (tx_hash t)))).

(** ** Blocks *)
(** blocks/adapter.go:26-49 *)
Definition block_to_transfer (b : block) : res tblock :=
  let! ht := hashtree_of_blocks (map tx_hash (bk_trx b)) in
  tblock_now (bk_hash b) ht (u64 (N.of_nat (length (bk_trx b)))) (bk_additional b) (im_created (bk_im b)).
(** blocks/repository.go:45-50, states/repository.go:36-41: the heads of the first
    [int(amount)] leaves; the index runs out of range if there are fewer *)
Fixpoint first_heads (n : nat) (ls : list leaf) : res (list hash) :=
  match n, ls with
  | O, _ => Ok []
  | S _, [] => Panic
  | S n, l :: ls => let! hs := first_heads n ls in Ok (leaf_head l :: hs)
  end.
(** the loop does not run at all for a negative [int(amount)] *)
Definition tree_hashes (amount : N) (t : hashtree) : res (list hash) :=
  let ls := ht_block_leaves t in
  let n := int_of_u64 amount in
  if (n <=? 0)%Z then Ok []
  else if (Z.of_nat (length ls) <? n)%Z then Panic
  else first_heads (Z.to_nat n) ls.
(** blocks/repository.go:34-65 *)
Definition block_retrieve (h : hash) (d : disk) : res block :=
  let! t := tr_retrieve d_tblock KBlock d (hash_string h) in
  let! g := genesis_retrieve d in
  let! hs := tree_hashes (tk_amount t) (tk_trx t) in
  let! trx := trxs_retrieve hs d in
  block_now 0 (Some g) (tk_additional t) trx (Some (im_created (tk_im t))).
(** blocks/service.go:32-51: the genesis is not saved *)
Definition block_save (b : block) : act :=
  unless (block_retrieve (bk_hash b)) (
  each trx_save (bk_trx b) ;;
  lift (block_to_transfer b) (tr_save e_tblock KBlock (hash_string (bk_hash b)))).

(** ** Mined blocks *)
(** blocks/mined/adapter.go:22-28 *)
Definition mblock_to_transfer (b : mined_block) : res tmblock :=
  tmblock_now (mb_hash b) (bk_hash (mb_block b)) (mb_mining b) (im_created (mb_im b)).
(** blocks/mined/repository.go:30-45 *)
Definition mblock_retrieve (h : hash) (d : disk) : res mined_block :=
  let! t := tr_retrieve d_tmblock KMBlock d (hash_string h) in
  let! b := block_retrieve (tm_block t) d in
  mined_block_now 0 (Some b) (tm_mining t) (Some (im_created (tm_im t))).
(** blocks/mined/service.go:32-51 *)
Definition mblock_save (b : mined_block) : act :=
  unless (mblock_retrieve (mb_hash b)) (
  block_save (mb_block b) ;;
  lift (mblock_to_transfer b) (tr_save e_tmblock KMBlock (hash_string (mb_hash b)))).

(** ** Links *)
(** links/adapter.go:22-35 *)
Definition link_to_transfer (l : chain_link) : res tlink :=
  tlink_now (ln_hash l) (ln_prev l) (bk_hash (ln_next l)) (ln_index l) (im_created (ln_im l)).
(** links/repository.go:30-51 *)
Definition link_retrieve (h : hash) (d : disk) : res chain_link :=
  let! t := tr_retrieve d_tlink KLink d (hash_string h) in
  let! b := block_retrieve (ti_next t) d in
  link_now 0 (Some (ti_prev t)) (Some b) (ti_index t) (Some (im_created (ti_im t))).
(** links/service.go:32-51 *)
Definition link_save (l : chain_link) : act :=
  unless (link_retrieve (ln_hash l)) (
  block_save (ln_next l) ;;
  lift (link_to_transfer l) (tr_save e_tlink KLink (hash_string (ln_hash l)))).

(** ** Mined links *)
(** links/mined/adapter.go:25-31 *)
Definition mlink_to_transfer (l : mined_link) : res tmlink :=
  tmlink_now (ml_hash l) (ln_hash (ml_link l)) (ml_mining l) (im_created (ml_im l)).
(** links/mined/repository.go:30-45 *)
Definition mlink_retrieve (h : hash) (d : disk) : res mined_link :=
  let! t := tr_retrieve d_tmlink KMLink d (hash_string h) in
  let! l := link_retrieve (tn_link t) d in
  mined_link_now 0 (Some l) (tn_mining t) (Some (im_created (tn_im t))).
(** links/mined/service.go:32-51 *)
Definition mlink_save (l : mined_link) : act :=
  unless (mlink_retrieve (ml_hash l)) (
  link_save (ml_link l) ;;
  lift (mlink_to_transfer l) (tr_save e_tmlink KMLink (hash_string (ml_hash l)))).

(** ** Chains *)
(** as for the genesis *)
Definition chain_name : bytes := s2b "chain".
(** chains/adapter.go:22-37 *)
Definition chain_to_transfer (c : chain) : res tchain :=
  tchain_now (ch_hash c) (gn_hash (ch_genesis c)) (mb_hash (ch_root c)) (ml_hash (ch_head c)) (ch_total c)
    (im_created (ch_im c)).
(** chains/repository.go:40-78: note the comparison in line 52 *)
Definition chain_retrieve (d : disk) : res chain :=
  let! t := tr_retrieve d_tchain KChain d chain_name in
  let! g := genesis_retrieve d in
  if bseq (tc_genesis t) (gn_hash g) then Err
  else
    let! root := mblock_retrieve (tc_root t) d in
    let! head := mlink_retrieve (tc_head t) d in
    chain_now 0 (Some g) (Some root) (Some head) (tc_total t) (Some (im_created (tc_im t))).
(** chains/service.go:89-106 save *)
Definition chain_write (c : chain) : act :=
  mlink_save (ch_head c) ;;
  lift (chain_to_transfer c) (tr_save e_tchain KChain chain_name).
(** chains/service.go:43-61 Update *)
Definition chain_update (original updated : chain) : act := fun s =>
  if bseq (gn_hash (ch_genesis original)) (gn_hash (ch_genesis updated)) then (Err, s)
  else if bseq (mb_hash (ch_root original)) (mb_hash (ch_root updated)) then (Err, s)
  else chain_write updated s.
(** chains/service.go:64-87 Insert *)
Definition chain_insert (c : chain) : act :=
  unless chain_retrieve (
  genesis_save (ch_genesis c) ;;
  mblock_save (ch_root c) ;;
  chain_write c).

(** ** States *)
(** states/helper.go:9-11 (domain/transfers/piastres): [string(blockIndex)] is the UTF-8
    text of the rune of that number, U+FFFD if there is none; filepath.Join cleans the
    result.  The file names are the components after the base path. *)
Definition rune_text (n : N) : bytes :=
  if (n <? 65536)%N then utf8 n
  else if (n <=? 1114111)%N
  then [n2b (240 + n / 262144); n2b (128 + (n / 4096) mod 64); n2b (128 + (n / 64) mod 64); n2b (128 + n mod 64)]
  else utf8 65533.
Definition state_path (chain : hash) (height : N) : list bytes := fpath [] (hash_string chain ++ [x2f] ++ rune_text height).
(** names of this kind are joined paths *)
Definition state_file (chain : hash) (height : N) : bytes := concat (map (fun c => x2f :: c) (state_path chain height)).
(** states/adapter.go:26-51: neither chain nor amount are passed on; the amount not
    given is 0 *)
Definition state_to_transfer (s : state) : res tstate :=
  let! ht := hashtree_of_blocks (map tx_hash (st_trx s)) in
  tstate_now (st_hash s) None (st_prev s) (st_height s) ht 0 (im_created (st_im s)).
(** states/repository.go:30-57 *)
Definition state_retrieve (chain : hash) (height : N) (d : disk) : res state :=
  let! t := tr_retrieve d_tstate KState d (state_file chain height) in
  let! hs := tree_hashes (ts_amount t) (ts_trx t) in
  let! trx := trxs_retrieve hs d in
  state_now 0 (Some chain) (Some (ts_prev t)) height trx (Some (im_created (ts_im t))).
(** states/service.go:28-49 *)
Definition state_save (st : state) : act := fun s =>
  let store := lift (state_to_transfer st)
    (fun t => tr_save e_tstate KState (state_file (ts_chain t) (ts_height t)) t) in
  match state_retrieve (st_chain st) (st_height st) (fs_disk s) with
  | Ok r => if (length (st_trx st) <=? length (st_trx r))%nat then (Ok tt, s) else store s
  | Err => store s
  | Panic => (Panic, s)
  end.
End WithCurve.
