(** C96: builders answer an object or an error. *)
From Coq Require Import SpecFloat Lia.
From Verif Require Import Base HashModel HashTreeModel EntitiesModel SignModel SignSpec ToyCurve FloatModel PiastresModel PiastresSpec PiastresProofs
  Properties_Piastres JsonModel TransferModel BucketModel IdentityModel CancelModel PeersModel BuilderSpec BuilderProofs.

(** ** C96: a builder accepts the complete and consistent requests, with an error for all others *)
(** keys that are all different *)
Theorem C96_lock : forall now keys created,
  builds (lock_now now keys created) (keys <> [] /\ NoDup keys) (Lock (stamp keys now created) keys).
Proof. exact builds_lock. Qed.
Print Assumptions C96_lock.
Theorem C96_bill : forall now l amount created,
  builds (bill_now now (Some l) amount created) (0 < amount)%N (bill_of l amount (time_of now created)).
Proof. exact builds_bill. Qed.
Print Assumptions C96_bill.
(** the purse, rounded to a uint64, is spent exactly, or more than the amount when a lock for the rest is given *)
Theorem C96_content : forall now amount from l rem created,
  let time := time_of now created in
  builds (content_now now amount from (Some l) rem created)
    ((0 < amount)%N /\ match rem with None => amount = purse from | Some _ => (amount < purse from)%N end)
    (Content (Immutable (hash_of (lk_hash l :: dec amount :: map bl_hash from ++ map lk_hash (given rem))) time) from
       (bill_of l amount time) (option_map (fun r => bill_of r (purse from - amount) time) rem)).
Proof. exact builds_content. Qed.
Print Assumptions C96_content.
(** signatures with a scalar for every key; what shorter ones do is C15 and C55 *)
Theorem C96_unlock : forall (C : Curve) l (s : ringsig C), long_enough s ->
  builds (unlock l s) (same_keys l s /\ ring_verify C s (hash_string (lk_hash l)) = Ok true) tt.
Proof. exact @builds_unlock. Qed.
Print Assumptions C96_unlock.
Theorem C96_expense : forall (C : Curve) now c (sigs : list (ringsig C)), Forall long_enough sigs ->
  builds (expense_now now (Some c) (Some sigs))
    (Forall2 (fun b s => same_keys (bl_lock b) s /\ ring_verify C s (hash_string (lk_hash (bl_lock b))) = Ok true) (ct_from c) sigs)
    (Expense (Immutable (hash_of (ct_hash c :: map (ring_string C) sigs)) (im_created (ct_im c))) c sigs).
Proof. exact @builds_expense. Qed.
Print Assumptions C96_expense.
Theorem C96_address : forall now sender recipients subject created,
  builds (address_now now sender recipients subject created) (~ (sender = None /\ recipients = [] /\ subject = None))
    (Address (stamp (given sender ++ recipients ++ given subject) now created) sender recipients subject).
Proof. exact builds_address. Qed.
Print Assumptions C96_address.
Theorem C96_transaction : forall (C : Curve) now addr bucket (fees : list (expense (C := C))) created,
  builds (transaction_now now addr bucket fees created) (~ (addr = None /\ bucket = None /\ fees = []))
    (Transaction (stamp (map ad_hash (given addr) ++ given bucket ++ map ex_hash fees) now created) addr bucket fees).
Proof. exact @builds_transaction. Qed.
Print Assumptions C96_transaction.
(** NaN is not rejected *)
Theorem C96_genesis : forall now base increase lnk b created,
  builds (genesis_now now base increase lnk (Some b) created) ((0 < base)%N /\ ~ up_to_zero increase /\ (0 < lnk)%N)
    (Genesis (stamp [dec base; format_f12 increase; dec lnk; bl_hash b] now created) b base increase lnk).
Proof. exact builds_genesis. Qed.
Print Assumptions C96_genesis.
Theorem C96_block : forall (C : Curve) now g additional (trx : list (transaction (C := C))) created,
  builds (block_now now (Some g) additional trx created) (trx <> [])
    (Block (stamp (gn_hash g :: dec additional :: map tx_hash trx) now created) g additional trx).
Proof. exact @builds_block. Qed.
Print Assumptions C96_block.
Theorem C96_mined_block : forall (C : Curve) now (b : block (C := C)) mining created,
  mined_block_now now (Some b) mining created = Ok (MinedBlock (stamp [bk_hash b; mining] now created) b mining).
Proof. exact @builds_mined_block. Qed.
Print Assumptions C96_mined_block.
Theorem C96_link : forall (C : Curve) now prev (next : block (C := C)) index created,
  link_now now (Some prev) (Some next) index created = Ok (ChainLink (stamp [prev; bk_hash next; dec index] now created) prev next index).
Proof. exact @builds_link. Qed.
Print Assumptions C96_link.
Theorem C96_mined_link : forall (C : Curve) now (l : chain_link (C := C)) mining created,
  mined_link_now now (Some l) mining created = Ok (MinedLink (stamp [ln_hash l; mining] now created) l mining).
Proof. exact @builds_mined_link. Qed.
Print Assumptions C96_mined_link.
Theorem C96_chain : forall (C : Curve) now g (root : mined_block (C := C)) head total created,
  builds (chain_now now (Some g) (Some root) (Some head) total created) (at_least root head <= total)%N
    (Chain (stamp [gn_hash g; mb_hash root; ml_hash head; dec total] now created) g root head total).
Proof. exact @builds_chain. Qed.
Print Assumptions C96_chain.
Theorem C96_state : forall (C : Curve) now ch prev height (trx : list (transaction (C := C))) created,
  builds (state_now now (Some ch) (Some prev) height trx created) ((0 < height)%N /\ trx <> [])
    (State (stamp (ch :: prev :: dec height :: map tx_hash trx) now created) ch prev height trx).
Proof. exact @builds_state. Qed.
Print Assumptions C96_state.
(** a part that was not given *)
Theorem C96_missing : forall (C : Curve) now created,
  (forall amount, bill_now now None amount created = Err) /\
  (forall amount from rem, content_now now amount from None rem created = Err) /\
  (forall ct (sigs : option (list (ringsig C))), ct = None \/ sigs = None -> expense_now now ct sigs = Err) /\
  (forall base increase lnk, genesis_now now base increase lnk None created = Err) /\
  (forall additional (trx : list (transaction (C := C))), block_now now None additional trx created = Err) /\
  (forall mining, mined_block_now (C := C) now None mining created = Err) /\
  (forall prev (next : option (block (C := C))) index, prev = None \/ next = None -> link_now now prev next index created = Err) /\
  (forall mining, mined_link_now (C := C) now None mining created = Err) /\
  (forall g (root : option (mined_block (C := C))) head total, g = None \/ root = None \/ head = None -> chain_now now g root head total created = Err) /\
  (forall ch prev height (trx : list (transaction (C := C))), ch = None \/ prev = None -> state_now now ch prev height trx created = Err).
Proof. exact @missing_parts. Qed.
Print Assumptions C96_missing.
Theorem C96_chunk : forall now size data created,
  builds (chunk_now now size (Some data) created) (0 < size)%N (Chunk (stamp [dec size; data] now created) size data).
Proof. exact builds_chunk. Qed.
Print Assumptions C96_chunk.
Theorem C96_no_data : forall now size created, chunk_now now size None created = Err.
Proof. exact no_data. Qed.
Print Assumptions C96_no_data.
Theorem C96_file : forall now path chunks created,
  builds (bfile_now now path chunks created) (path <> [] /\ chunks <> []) (BFile (stamp (path :: map ck_hash chunks) now created) path chunks).
Proof. exact builds_file. Qed.
Print Assumptions C96_file.
Theorem C96_bucket : forall now files created,
  builds (bucket_now now files created) (files <> []) (Bucket (stamp (map bf_hash files) now created) files).
Proof. exact builds_bucket. Qed.
Print Assumptions C96_bucket.
Theorem C96_entry : forall (C : Curve) now name (trx : list (transaction (C := C))) description created,
  builds (entry_now now name trx description created) (name <> [] /\ trx <> [])
    (MEntry (stamp (name :: map tx_hash trx) now created) name trx description).
Proof. exact @builds_entry. Qed.
Print Assumptions C96_entry.
Theorem C96_statement : forall (C : Curve) now (incoming outgoing : list (mentry (C := C))) created,
  statement_now now incoming outgoing created =
  Ok (Statement (stamp (map en_hash incoming ++ map en_hash outgoing) now created) incoming outgoing).
Proof. exact @builds_statement. Qed.
Print Assumptions C96_statement.
(** [abs] is filepath.Abs, [missing] whether the file is not there *)
Theorem C96_identity_bucket : forall abs missing now b path key created, (forall p, abs p <> Panic) ->
  (forall full, abs path = Ok full ->
    builds (ibucket_now abs missing now (Some b) path (Some key) created) (path <> [] /\ missing full = false)
      (IBucket (stamp [full] now created) b full key)) /\
  (abs path = Err -> ibucket_now abs missing now (Some b) path (Some key) created = Err) /\
  (forall b key, b = None \/ key = None -> ibucket_now abs missing now b path key created = Err).
Proof. exact builds_ibucket. Qed.
Print Assumptions C96_identity_bucket.
Theorem C96_identity : forall (C : Curve) now1 now2 seed name root ws (bs : list ibucket) created updated,
  let c := time_of now1 created in let u := time_of now2 updated in
  builds (identity_now (C := C) now1 now2 seed name root ws bs created updated)
    (seed <> [] /\ name <> [] /\ root <> [] /\ (c <= u)%Z)
    (Identity (Mutable (hash_of (seed :: name :: root :: map wt_hash ws ++ map ib_hash bs)) c u) seed name root ws bs).
Proof. exact @builds_identity. Qed.
Print Assumptions C96_identity.
(** the stored forms *)
Theorem C96_stored : forall h created,
  let im := Immutable h created in
  (forall keys, tlock_now h keys created = Ok (TLock im keys)) /\
  (forall l amount, builds (tbill_now h l amount created) (0 < amount)%N (TBill im l amount)) /\
  (forall b base increase lnk, builds (tgenesis_now h b base increase lnk created)
     ((0 < base)%N /\ ~ up_to_zero increase /\ (0 < lnk)%N) (TGenesis im b base increase lnk)) /\
  (forall addr bucket fees, builds (ttrx_now h addr bucket fees created) (~ (addr = None /\ bucket = None /\ fees = []))
     (TTrx im addr bucket fees)) /\
  (forall trx amount additional, builds (tblock_now h trx amount additional created) (0 < amount)%N (TBlock im trx amount additional)) /\
  (forall b mining, tmblock_now h b mining created = Ok (TMBlock im b mining)) /\
  (forall prev next index, tlink_now h prev next index created = Ok (TLink im prev next index)) /\
  (forall l mining, tmlink_now h l mining created = Ok (TMLink im l mining)) /\
  (forall g root head total, builds (tchain_now h g root head total created) (0 < total)%N (TChain im g root head total)) /\
  (forall ch prev height trx amount, builds (tstate_now h (Some ch) prev height trx amount created) ((0 < height)%N /\ (0 < amount)%N)
     (TState im ch prev height trx amount)).
Proof. exact builds_stored. Qed.
Print Assumptions C96_stored.
Theorem C96_stored_signed : forall (C : Curve) h created,
  (forall from to (sigs : list (ringsig C)) rem, builds (texpense_now h from to sigs rem created) (from <> [] /\ sigs <> [])
     (TExpense (Immutable h created) from to sigs rem)) /\
  (forall now e l (sigs : list (ringsig C)), builds (tcancel_now now (Some h) (Some e) (Some l) (Some sigs) (Some created)) (sigs <> [])
     (TCancel (Immutable h created) e l sigs)) /\
  (forall now h e l (sigs : option (list (ringsig C))) created, h = None \/ e = None \/ l = None \/ sigs = None ->
     tcancel_now now h e l sigs created = Err) /\
  (forall b (pks : list (Sc C)), builds (twbill_now h b pks created) (pks <> []) (TWBill (Immutable h created) b pks)).
Proof. exact builds_stored_signed. Qed.
Print Assumptions C96_stored_signed.
Theorem C96_stored_identity : forall h created,
  (forall name trx description, builds (tentry_now h name trx description created) (name <> [] /\ trx <> [])
     (TEntry (Immutable h created) name trx description)) /\
  (forall incoming outgoing, tstatement_now h incoming outgoing created = Ok (TStatement (Immutable h created) incoming outgoing)) /\
  (forall now1 now2 seed name root ws bs updated, let u := time_of now2 updated in
     builds (tidentity_now now1 now2 h seed name root ws bs (Some created) updated)
       (seed <> [] /\ name <> [] /\ root <> [] /\ (created <= u)%Z)
       (TIdentity (Mutable h created u) seed name root ws bs)).
Proof. exact builds_stored_identity. Qed.
Print Assumptions C96_stored_identity.
Theorem C96_peer : forall host port clear onion,
  builds (peer_now host port clear onion) (host <> [] /\ (0 < port)%N /\ (clear = true \/ onion = true))
    (Peer host port clear (negb clear)).
Proof. exact builds_peer. Qed.
Print Assumptions C96_peer.
Theorem C96_key : forall (R : rsa),
  (forall k, private_now R (Some k) = Ok (PrivateKey R k (rsa_public R k))) /\ private_now R None = Err.
Proof. exact builds_key. Qed.
Print Assumptions C96_key.

Definition toy_bills : res (list bill) := rget (toy_bill 5 100) (fun b1 => rget (toy_bill 9 50) (fun b2 => Ok [b1; b2])).
Example C96_case :
  (exists l, lock_now 0 [rhash 1; rhash 2] None = Ok l) /\ lock_now 0 [rhash 1; rhash 1] None = Err /\ lock_now 0 [] None = Err /\
  rget toy_bills (fun from => rget (toy_lock 11) (fun lk =>
    Ok (map (fun a => is_ok (content_now 0 a from (Some lk) None None)) [149; 150; 151]%N,
        map (fun a => is_ok (content_now 0 a from (Some lk) (Some lk) None)) [0; 149; 150]%N))) =
    Ok ([false; true; false], [false; true; false]) /\
  rget (toy_bill 5 100) (fun b => rget (toy_sig b 5) (fun s => Ok (length (rs_ring s) <=? length (rs_s s), is_ok (@unlock toy (bl_lock b) s)))) = Ok (true, true) /\
  up_to_zero (S754_zero true) /\ ~ up_to_zero S754_nan /\
  is_ok (genesis_now 0 1 S754_nan 1 (Some (Bill (Immutable [] 0) (Lock (Immutable [] 0) []) 1)) None) = true.
Proof.
  split; [eexists; vm_compute; reflexivity|]. split; [vm_compute; reflexivity|]. split; [reflexivity|].
  split; [vm_compute; reflexivity|]. split; [vm_compute; reflexivity|]. split; [exact I|]. split; [exact (fun H => H)|]. vm_compute. reflexivity.
Qed.
