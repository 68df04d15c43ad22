(** What the stores are meant to do.  Objects are compared up to creation times: a part
    that was already stored keeps the time it was first stored with. *)
From Verif Require Import Base HashModel HashSpec SignModel EntitiesModel FloatModel PiastresModel PiastresSpec JsonModel JsonProofs
  TimeModel FloatText MemJsonModel CodecProofs MemSpec MemJsonProofs TransferModel StoreModel.

Definition lock_eq (a b : lock) : Prop := lk_hash a = lk_hash b /\ lk_keys a = lk_keys b.
Definition bill_eq (a b : bill) : Prop :=
  bl_hash a = bl_hash b /\ lock_eq (bl_lock a) (bl_lock b) /\ bl_amount a = bl_amount b.
Definition opt_eq {A} (R : A -> A -> Prop) (a b : option A) : Prop :=
  match a, b with Some x, Some y => R x y | None, None => True | _, _ => False end.
Definition content_eq (a b : content) : Prop :=
  ct_hash a = ct_hash b /\ Forall2 bill_eq (ct_from a) (ct_from b) /\ bill_eq (ct_to a) (ct_to b) /\
  opt_eq bill_eq (ct_remaining a) (ct_remaining b).
Definition genesis_eq (a b : genesis) : Prop :=
  gn_hash a = gn_hash b /\ bill_eq (gn_bill a) (gn_bill b) /\ gn_base a = gn_base b /\
  gn_increase a = gn_increase b /\ gn_link a = gn_link b.

Section WithCurve.
Context {C : Curve}.
Definition expense_eq (a b : expense) : Prop :=
  ex_hash a = ex_hash b /\ content_eq (ex_content a) (ex_content b) /\ ex_sigs a = ex_sigs b.
Definition trx_eq (a b : transaction) : Prop :=
  tx_hash a = tx_hash b /\ tx_address a = tx_address b /\ tx_bucket a = tx_bucket b /\
  Forall2 expense_eq (tx_fees a) (tx_fees b).
Definition block_eq (a b : block) : Prop :=
  bk_hash a = bk_hash b /\ genesis_eq (bk_genesis a) (bk_genesis b) /\ bk_additional a = bk_additional b /\
  Forall2 trx_eq (bk_trx a) (bk_trx b).
Definition mblock_eq (a b : mined_block) : Prop :=
  mb_hash a = mb_hash b /\ block_eq (mb_block a) (mb_block b) /\ mb_mining a = mb_mining b.
Definition link_eq (a b : chain_link) : Prop :=
  ln_hash a = ln_hash b /\ ln_prev a = ln_prev b /\ block_eq (ln_next a) (ln_next b) /\ ln_index a = ln_index b.
Definition mlink_eq (a b : mined_link) : Prop :=
  ml_hash a = ml_hash b /\ link_eq (ml_link a) (ml_link b) /\ ml_mining a = ml_mining b.

(** ** Objects of any kind *)
Inductive obj :=
| OLock (l : lock) | OBill (b : bill) | OExpense (e : expense) | OTrx (t : transaction) | OGenesis (g : genesis)
| OBlock (b : block) | OMBlock (b : mined_block) | OLink (l : chain_link) | OMLink (l : mined_link).
Definition kind_of (o : obj) : kind :=
  match o with
  | OLock _ => KLock | OBill _ => KBill | OExpense _ => KExpense | OTrx _ => KTrx | OGenesis _ => KGenesis
  | OBlock _ => KBlock | OMBlock _ => KMBlock | OLink _ => KLink | OMLink _ => KMLink
  end.
Definition hash_of (o : obj) : hash :=
  match o with
  | OLock l => lk_hash l | OBill b => bl_hash b | OExpense e => ex_hash e | OTrx t => tx_hash t | OGenesis g => gn_hash g
  | OBlock b => bk_hash b | OMBlock b => mb_hash b | OLink l => ln_hash l | OMLink l => ml_hash l
  end.
Definition same (a b : obj) : Prop :=
  match a, b with
  | OLock a, OLock b => lock_eq a b
  | OBill a, OBill b => bill_eq a b
  | OExpense a, OExpense b => expense_eq a b
  | OTrx a, OTrx b => trx_eq a b
  | OGenesis a, OGenesis b => genesis_eq a b
  | OBlock a, OBlock b => block_eq a b
  | OMBlock a, OMBlock b => mblock_eq a b
  | OLink a, OLink b => link_eq a b
  | OMLink a, OMLink b => mlink_eq a b
  | _, _ => False
  end.
(** the objects an object directly consists of *)
Definition parts (o : obj) : list obj :=
  match o with
  | OLock _ => []
  | OBill b => [OLock (bl_lock b)]
  | OExpense e =>
      let c := ex_content e in map OBill (ct_from c) ++ [OBill (ct_to c)] ++ map OBill (opt_list (ct_remaining c))
  | OTrx t => map OExpense (tx_fees t)
  | OGenesis g => [OBill (gn_bill g)]
  | OBlock b => OGenesis (bk_genesis b) :: map OTrx (bk_trx b)
  | OMBlock b => [OBlock (mb_block b)]
  | OLink l => [OBlock (ln_next l)]
  | OMLink l => [OLink (ml_link l)]
  end.
Definition save_obj (o : obj) : act :=
  match o with
  | OLock l => lock_save l | OBill b => bill_save b | OExpense e => expense_save e | OTrx t => trx_save t
  | OGenesis g => genesis_save g | OBlock b => block_save b | OMBlock b => mblock_save b
  | OLink l => link_save l | OMLink l => mlink_save l
  end.
(** [Retrieve] of a kind; the genesis has no hash argument *)
Definition retrieve_obj (k : kind) (h : hash) (d : disk) : res obj :=
  match k with
  | KLock => rmap OLock (lock_retrieve h d)
  | KBill => rmap OBill (bill_retrieve h d)
  | KExpense => rmap OExpense (expense_retrieve h d)
  | KTrx => rmap OTrx (trx_retrieve h d)
  | KGenesis => rmap OGenesis (genesis_retrieve d)
  | KBlock => rmap OBlock (block_retrieve h d)
  | KMBlock => rmap OMBlock (mblock_retrieve h d)
  | KLink => rmap OLink (link_retrieve h d)
  | KMLink => rmap OMLink (mlink_retrieve h d)
  | KAddress | KChain | KState => Err
  end.
(** the genesis a block, or the block of a link, belongs to *)
Definition genesis_of (o : obj) : option genesis :=
  match o with
  | OBlock b => Some (bk_genesis b)
  | OMBlock b => Some (bk_genesis (mb_block b))
  | OLink l => Some (bk_genesis (ln_next l))
  | OMLink l => Some (bk_genesis (ln_next (ml_link l)))
  | _ => None
  end.

(** ** Histories *)
(** Objects made by the builders, whose times have a text, whose signatures and mining
    texts are the ones the program makes, and whose transactions have no address.  A Go
    slice has less than 2^63 elements. *)
Definition proper (o : obj) : Prop :=
  match o with
  | OLock l => good_lock l /\ dated_lock l
  | OBill b => good_bill b /\ dated_bill b
  | OExpense e => good_expense readable e /\ dated_expense e
  | OTrx t => good_trx readable t /\ dated_trx t /\ tx_address t = None
  | OGenesis g => good_genesis g /\ dated_genesis g
  | OBlock b => good_block readable b /\ dated_block b /\ (N.of_nat (length (bk_trx b)) < 2 ^ 63)%N
  | OMBlock b => good_mined_block readable unicode b /\ dated_block (mb_block b) /\ dated (im_created (mb_im b))
  | OLink l => good_link readable l /\ dated_link l
  | OMLink l => good_mined_link readable unicode l /\ dated_mined_link l
  end.
(** How far a history is looked at: locks, bills and the genesis only; also expenses and
    transactions; or everything. *)
Inductive mode := Base | Low | All.
Definition covers (m : mode) (k : kind) : Prop :=
  match m, k with
  | _, (KLock | KBill | KGenesis) => True
  | Base, _ => False
  | Low, (KExpense | KTrx) => True
  | Low, _ => False
  | All, _ => True
  end.
(** The objects of a history: with an object come its parts, and an object looked at is
    determined by its kind and hash up to times. *)
Record universe (m : mode) (U : obj -> Prop) : Prop := {
  u_parts : forall o p, U o -> In p (parts o) -> U p;
  u_proper : forall o, U o -> covers m (kind_of o) -> proper o;
  u_determined : forall o p, U o -> U p -> covers m (kind_of o) -> kind_of o = kind_of p -> hash_of o = hash_of p -> same o p
}.
Definition empty : disk := fun _ _ => None.
(** its genesis is in the store *)
Definition ready (d : disk) (o : obj) : Prop :=
  forall g, genesis_of o = Some g -> exists g', genesis_retrieve d = Ok g' /\ gn_hash g' = gn_hash g.
(** The disks reached from [d] by saving objects of [U], under any faults; if everything
    is looked at then blocks and links are only saved when their genesis is in the store. *)
Inductive steps (m : mode) (U : obj -> Prop) (d : disk) : disk -> Prop :=
| steps_none : steps m U d d
| steps_save : forall d1 o fl, steps m U d d1 -> U o -> (m = All -> ready d1 o) ->
    steps m U d (fs_disk (snd (save_obj o (Fs d1 fl)))).
Definition reach (m : mode) (U : obj -> Prop) (d : disk) : Prop := steps m U empty d.
(** the disk after a save without faults, and its outcome *)
Definition saved (o : obj) (d : disk) : disk := fs_disk (snd (save_obj o (Fs d []))).
Definition outcome (o : obj) (d : disk) : res unit := fst (save_obj o (Fs d [])).

(** ** When a hash determines its object *)
(** the text an object's hash is made of *)
Definition expense_text (e : expense) : bytes := ct_hash (ex_content e) ++ concat (map (ring_string C) (ex_sigs e)).
Definition hashed_text (o : obj) : bytes :=
  match o with
  | OLock l => lock_text l | OBill b => bill_text b | OExpense e => expense_text e | OTrx t => transaction_text t
  | OGenesis g => genesis_text g | OBlock b => block_text b | OMBlock b => mined_block_text b
  | OLink l => link_text l | OMLink l => mined_link_text l
  end.
(** What the concatenations leave open: where one signature ends and the next begins, which
    of the first hashes of a transaction is a bucket, and where the base of a genesis ends. *)
Definition unambiguous (o p : obj) : Prop :=
  match o, p with
  | OExpense a, OExpense b =>
      (value (ct_from (ex_content a)) < 2 ^ 64)%N /\ (value (ct_from (ex_content b)) < 2 ^ 64)%N /\
      ~ hash_coincidence (content_text (ex_content a)) (content_text (ex_content b)) /\
      (concat (map (ring_string C) (ex_sigs a)) = concat (map (ring_string C) (ex_sigs b)) -> ex_sigs a = ex_sigs b)
  | OTrx a, OTrx b => tx_bucket a = None <-> tx_bucket b = None
  | OGenesis a, OGenesis b =>
      dec (gn_base a) ++ format_f12 (gn_increase a) = dec (gn_base b) ++ format_f12 (gn_increase b) ->
      gn_base a = gn_base b /\ gn_increase a = gn_increase b
  | _, _ => True
  end.

(** the content of a file of this kind does not decode *)
Definition unreadable (k : kind) (s : bytes) : Prop :=
  match k with
  | KLock => unmarshal d_tlock s = Err
  | KBill => unmarshal d_tbill s = Err
  | KExpense => unmarshal (@d_texpense C) s = Err
  | KTrx => unmarshal d_ttrx s = Err
  | KGenesis => unmarshal d_tgenesis s = Err
  | KBlock => unmarshal d_tblock s = Err
  | KMBlock => unmarshal d_tmblock s = Err
  | KLink => unmarshal d_tlink s = Err
  | KMLink => unmarshal d_tmlink s = Err
  | KAddress | KChain | KState => True
  end.
(** the name of the file of an object *)
Definition file_name (k : kind) (h : hash) : bytes := match k with KGenesis => genesis_name | _ => hash_string h end.

(** ** Histories of all operations that write *)
Inductive op :=
| OpSave (o : obj) | OpAddress (a : address) | OpInsert (c : chain) | OpUpdate (original updated : chain) | OpState (s : state).
Definition run_op (x : op) : act :=
  match x with
  | OpSave o => save_obj o
  | OpAddress a => address_save a
  | OpInsert c => chain_insert c
  | OpUpdate a b => chain_update a b
  | OpState s => state_save s
  end.
(** the objects it saves *)
Definition op_objs (x : op) : list obj :=
  match x with
  | OpSave o => [o]
  | OpInsert c | OpUpdate _ c => [OGenesis (ch_genesis c); OMBlock (ch_root c); OMLink (ch_head c)]
  | OpAddress _ | OpState _ => []
  end.
Inductive runs (U : obj -> Prop) (d : disk) : disk -> Prop :=
| runs_none : runs U d d
| runs_op : forall d1 x fl, runs U d d1 -> (forall o, In o (op_objs x) -> U o) ->
    runs U d (fs_disk (snd (run_op x (Fs d1 fl)))).

(** ** Addresses *)
(** a sequence of operations, each with the fate of its writes *)
Fixpoint after_ops (xs : list (op * list fault)) (d : disk) : disk :=
  match xs with [] => d | (x, fl) :: xs => after_ops xs (fs_disk (snd (run_op x (Fs d fl)))) end.
(** what the hash [h] gives after an operation, if it gave [old] before: an address that is
    written replaces the old one, a write that is cut off leaves nothing that can be read *)
Definition address_after (h : hash) (old : res address) (x : op * list fault) : res address :=
  match x with
  | (OpAddress a, fl) =>
      if bseq (ad_hash a) h then
        match fl with
        | Denied :: _ => old
        | Torn i :: _ => match address_to_text a with Ok s => if (i <? length s)%nat then Err else Ok a | _ => old end
        | _ => Ok a
        end
      else old
  | _ => old
  end.
End WithCurve.
Arguments obj C : clear implicits.
Arguments op C : clear implicits.
