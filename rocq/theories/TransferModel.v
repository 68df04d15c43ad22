(** The stored forms: domain/transfers/piastres.  Objects refer to their parts by hash.

    In the code a document is first unmarshalled into a struct of strings and numbers,
    then the strings are converted and the builder is called.  Here a string is
    converted where its field is read, as both phases can only fail with an error;
    where the second phase can crash (blocks and states) the order of the code is kept.
    Every builder is given a hash and a creation time by all its callers, so that the
    checks for their presence are left out; likewise for slices, which are never nil. *)
From Verif Require Import Base HashModel HashTreeModel SignModel EntitiesModel FloatModel PiastresModel
  JsonModel TimeModel FloatText MemJsonModel.

(** ** Fields *)
Definition jhash (h : hash) : res json := jstr (hash_string h).
Definition dhash (js : list json) : res hash := let! s := dstr js in FromString s.
(** the strings are converted after they have been decoded *)
Definition dhashes (js : list json) : res (list hash) := let! ss := dlist dstr js in rmapM FromString ss.
(** "" stands for an absent hash *)
Definition johash (o : option hash) : res json := jstr (opt_hash_string o).
Definition dohash (js : list json) : res (option hash) := let! s := dstr js in opt_of_string s.

(** ** Locks *)
(** locks/lock.go:11-14 *)
Record tlock := TLock { tl_im : immutable; tl_keys : list hash }.
(** locks/builder.go:55-70 Now *)
Definition tlock_now (h : hash) (keys : list hash) (created : Z) : res tlock :=
  Ok (TLock (Immutable h created) keys).
(** locks/json_lock.go:7-38 *)
Definition e_tlock (t : tlock) : res json :=
  jstruct [("hash", jhash (im_hash (tl_im t))); ("pubkeys", jlist jhash (tl_keys t));
           ("created_on", jtime (im_created (tl_im t)))]%string.
(** locks/lock.go:16-39 createLockFromJSON *)
Definition d_tlock (js : list json) : res tlock :=
  let! m := dstruct js in
  let! h := field "hash" dhash m in
  let! keys := field "pubkeys" dhashes m in
  let! created := field "created_on" dtime m in
  tlock_now h keys created.

(** ** Bills *)
(** bills/bill.go:11-15 *)
Record tbill := TBill { tb_im : immutable; tb_lock : hash; tb_amount : N }.
(** bills/builder.go:63-82 Now *)
Definition tbill_now (h lk : hash) (amount : N) (created : Z) : res tbill :=
  if (amount =? 0)%N then Err else Ok (TBill (Immutable h created) lk amount).
(** bills/json_bill.go:5-33 *)
Definition e_tbill (t : tbill) : res json :=
  jstruct [("hash", jhash (im_hash (tb_im t))); ("lock", jhash (tb_lock t)); ("amount", juint (tb_amount t));
           ("created_on", jtime (im_created (tb_im t)))]%string.
(** bills/bill.go:17-35 createBillFromJSON *)
Definition d_tbill (js : list json) : res tbill :=
  let! m := dstruct js in
  let! h := field "hash" dhash m in
  let! lk := field "lock" dhash m in
  let! amount := field "amount" duint m in
  let! created := field "created_on" dtime m in
  tbill_now h lk amount created.

(** ** Genesis *)
(** genesis/genesis.go:11-17 *)
Record tgenesis := TGenesis { tg_im : immutable; tg_bill : hash; tg_base : N; tg_increase : float64; tg_link : N }.
(** genesis/builder.go:79-112 Now *)
Definition tgenesis_now (h b : hash) (base : N) (increase : float64) (lnk : N) (created : Z) : res tgenesis :=
  if (base =? 0)%N then Err
  else if f_le_zero increase then Err
  else if (lnk =? 0)%N then Err
  else Ok (TGenesis (Immutable h created) b base increase lnk).
(** genesis/json_genesis.go:7-44 *)
Definition e_tgenesis (t : tgenesis) : res json :=
  jstruct [("hash", jhash (im_hash (tg_im t))); ("bill", jhash (tg_bill t));
           ("block_difficulty_base", juint (tg_base t));
           ("block_difficulty_increase_per_trx", jfloat (tg_increase t));
           ("link_difficulty", juint (tg_link t)); ("created_on", jtime (im_created (tg_im t)))]%string.
(** genesis/genesis.go:19-40 createGenesisFromJSON *)
Definition d_tgenesis (js : list json) : res tgenesis :=
  let! m := dstruct js in
  let! h := field "hash" dhash m in
  let! b := field "bill" dhash m in
  let! base := field "block_difficulty_base" duint m in
  let! increase := field "block_difficulty_increase_per_trx" dfloat m in
  let! lnk := field "link_difficulty" duint m in
  let! created := field "created_on" dtime m in
  tgenesis_now h b base increase lnk created.

(** ** Transactions *)
(** transactions/transaction.go:11-16 *)
Record ttrx := TTrx { tt_im : immutable; tt_address : option hash; tt_bucket : option hash; tt_fees : list hash }.
(** transactions/builder.go:71-114 Now: an error if there is neither address, bucket nor fee *)
Definition ttrx_now (h : hash) (addr bucket : option hash) (fees : list hash) (created : Z) : res ttrx :=
  match addr, bucket, fees with
  | None, None, [] => Err
  | _, _, _ => Ok (TTrx (Immutable h created) addr bucket fees)
  end.
(** transactions/json_transaction.go:7-56 *)
Definition e_ttrx (t : ttrx) : res json :=
  jstruct [("hash", jhash (im_hash (tt_im t))); ("address", johash (tt_address t));
           ("fees", jlist jhash (tt_fees t)); ("bucket", johash (tt_bucket t));
           ("created_on", jtime (im_created (tt_im t)))]%string.
(** transactions/transaction.go:18-63 createTransactionFromJSON *)
Definition d_ttrx (js : list json) : res ttrx :=
  let! m := dstruct js in
  let! h := field "hash" dhash m in
  let! addr := field "address" dohash m in
  let! fees := field "fees" dhashes m in
  let! bucket := field "bucket" dohash m in
  let! created := field "created_on" dtime m in
  ttrx_now h addr bucket fees created.

(** ** Mined blocks *)
(** blocks/mined/block.go:11-15 *)
Record tmblock := TMBlock { tm_im : immutable; tm_block : hash; tm_mining : bytes }.
(** blocks/mined/builder.go:63-78 Now *)
Definition tmblock_now (h b : hash) (mining : bytes) (created : Z) : res tmblock :=
  Ok (TMBlock (Immutable h created) b mining).
(** blocks/mined/json_block.go:5-34 *)
Definition e_tmblock (t : tmblock) : res json :=
  jstruct [("hash", jhash (im_hash (tm_im t))); ("block", jhash (tm_block t)); ("mining", jstr (tm_mining t));
           ("created_on", jtime (im_created (tm_im t)))]%string.
(** blocks/mined/block.go:17-36 createBlockFromJSON *)
Definition d_tmblock (js : list json) : res tmblock :=
  let! m := dstruct js in
  let! h := field "hash" dhash m in
  let! b := field "block" dhash m in
  let! mining := field "mining" dstr m in
  let! created := field "created_on" dtime m in
  tmblock_now h b mining created.

(** ** Links *)
(** links/link.go:11-16 *)
Record tlink := TLink { ti_im : immutable; ti_prev : hash; ti_next : hash; ti_index : N }.
(** links/builder.go:71-90 Now *)
Definition tlink_now (h prev next : hash) (index : N) (created : Z) : res tlink :=
  Ok (TLink (Immutable h created) prev next index).
(** links/json_link.go:7-40 *)
Definition e_tlink (t : tlink) : res json :=
  jstruct [("hash", jhash (im_hash (ti_im t))); ("previous_link", jhash (ti_prev t)); ("next", jhash (ti_next t));
           ("index", juint (ti_index t)); ("created_on", jtime (im_created (ti_im t)))]%string.
(** links/link.go:18-43 createLinkFromJSON *)
Definition d_tlink (js : list json) : res tlink :=
  let! m := dstruct js in
  let! h := field "hash" dhash m in
  let! prev := field "previous_link" dhash m in
  let! next := field "next" dhash m in
  let! index := field "index" duint m in
  let! created := field "created_on" dtime m in
  tlink_now h prev next index created.

(** ** Mined links *)
(** links/mined/link.go:11-15 *)
Record tmlink := TMLink { tn_im : immutable; tn_link : hash; tn_mining : bytes }.
(** links/mined/builder.go:63-79 Now *)
Definition tmlink_now (h l : hash) (mining : bytes) (created : Z) : res tmlink :=
  Ok (TMLink (Immutable h created) l mining).
(** links/mined/json_link.go:7-36 *)
Definition e_tmlink (t : tmlink) : res json :=
  jstruct [("hash", jhash (im_hash (tn_im t))); ("link", jhash (tn_link t)); ("mining", jstr (tn_mining t));
           ("created_on", jtime (im_created (tn_im t)))]%string.
(** links/mined/link.go:17-36 createLinkFromJSON *)
Definition d_tmlink (js : list json) : res tmlink :=
  let! m := dstruct js in
  let! h := field "hash" dhash m in
  let! l := field "link" dhash m in
  let! mining := field "mining" dstr m in
  let! created := field "created_on" dtime m in
  tmlink_now h l mining created.

(** ** Chains *)
(** chains/chain.go:11-17 *)
Record tchain := TChain { tc_im : immutable; tc_genesis : hash; tc_root : hash; tc_head : hash; tc_total : N }.
(** chains/builder.go:79-106 Now *)
Definition tchain_now (h gen root head : hash) (total : N) (created : Z) : res tchain :=
  if (total =? 0)%N then Err else Ok (TChain (Immutable h created) gen root head total).
(** chains/json_chain.go:7-44 *)
Definition e_tchain (t : tchain) : res json :=
  jstruct [("hash", jhash (im_hash (tc_im t))); ("genesis", jhash (tc_genesis t)); ("root", jhash (tc_root t));
           ("head", jhash (tc_head t)); ("total", juint (tc_total t));
           ("created_on", jtime (im_created (tc_im t)))]%string.
(** chains/chain.go:19-50 createChainFromJSON *)
Definition d_tchain (js : list json) : res tchain :=
  let! m := dstruct js in
  let! h := field "hash" dhash m in
  let! gen := field "genesis" dhash m in
  let! root := field "root" dhash m in
  let! head := field "head" dhash m in
  let! total := field "total" duint m in
  let! created := field "created_on" dtime m in
  tchain_now h gen root head total created.

(** ** Hash trees (libs/hashtree) *)
(** json_leaf.go:4-7, json_parentleaf.go:4-7 *)
Fixpoint e_jleaf (x : jleaf) : res json :=
  match x with
  | JNil => Ok JNull
  | JLeaf head node => jstruct [("head", jstr head); ("node", e_jnode node)]%string
  end
with e_jnode (x : jnode) : res json :=
  match x with
  | NNil => Ok JNull
  | NNode l r => jstruct [("left", e_jleaf l); ("right", e_jleaf r)]%string
  end.
(** nesting of a document *)
Fixpoint jdepth (j : json) : nat :=
  match j with
  | JArr l => S (fold_right Nat.max 0 (map jdepth l))
  | JObj m => S (fold_right Nat.max 0 (map (fun p => jdepth (snd p)) m))
  | _ => 0
  end.
Definition jdepths (js : list json) : nat := fold_right Nat.max 0 (map jdepth js).
(** [fuel] bounds the nesting; the nesting of the document itself is enough
    ([TransferProofs.d_jleaf_fuel]) *)
Fixpoint d_jleaf (fuel : nat) (js : list json) : res jleaf :=
  match fuel with
  | O => Err
  | S fuel =>
      let! x := dptr (fun js =>
        let! m := dstruct js in
        let! head := field "head" dstr m in
        let! node := field "node" (dptr (fun js =>
          let! m := dstruct js in
          let! l := field "left" (d_jleaf fuel) m in
          let! r := field "right" (d_jleaf fuel) m in
          Ok (NNode l r))) m in
        Ok (JLeaf head (match node with Some n => n | None => NNil end))) js in
      Ok (match x with Some x => x | None => JNil end)
  end.
(** json_compact.go:4-7 *)
Definition e_jcompact (x : jcompact) : res json :=
  jstruct [("head", jstr (jc_head x)); ("leaves", jlist e_jleaf (jc_leaves x))]%string.
Definition d_jcompact (js : list json) : res jcompact :=
  let! m := dstruct js in
  let! head := field "head" dstr m in
  let! leaves := field "leaves" (dlist (fun js => d_jleaf (S (jdepths js)) js)) m in
  Ok (JCompact head leaves).
(** block.go:26-34 of the blocks, state.go:36-44 of the states: the compact form is read
    and its leaves are built into a tree again; a nil compact form is dereferenced *)
Definition tree_of_jcompact (o : option jcompact) : res hashtree :=
  match o with
  | None => Panic
  | Some x => let! c := compact_of_json x in leaves_hashtree (c_leaves c)
  end.
Definition jcompact_of_tree (t : hashtree) : jcompact := json_of_compact (ht_compact t).

(** ** Blocks *)
(** blocks/block.go:12-17 *)
Record tblock := TBlock { tk_im : immutable; tk_trx : hashtree; tk_amount : N; tk_additional : N }.
(** blocks/builder.go:72-91 Now *)
Definition tblock_now (h : hash) (trx : hashtree) (amount additional : N) (created : Z) : res tblock :=
  if (amount =? 0)%N then Err else Ok (TBlock (Immutable h created) trx amount additional).
(** blocks/json_block.go:9-44 *)
Definition e_tblock (t : tblock) : res json :=
  jstruct [("hash", jhash (im_hash (tk_im t))); ("transactions", e_jcompact (jcompact_of_tree (tk_trx t)));
           ("amount", juint (tk_amount t)); ("additional", juint (tk_additional t));
           ("created_on", jtime (im_created (tk_im t)))]%string.
(** blocks/block.go:19-44 createBlockFromJSON *)
Definition d_tblock (js : list json) : res tblock :=
  let! m := dstruct js in
  let! hs := field "hash" dstr m in
  let! trx := field "transactions" (dptr d_jcompact) m in
  let! amount := field "amount" duint m in
  let! additional := field "additional" duint m in
  let! created := field "created_on" dtime m in
  let! h := FromString hs in
  let! t := tree_of_jcompact trx in
  tblock_now h t amount additional created.

(** ** States *)
(** states/state.go:12-19 *)
Record tstate := TState { ts_im : immutable; ts_chain : hash; ts_prev : hash; ts_height : N; ts_trx : hashtree; ts_amount : N }.
(** states/builder.go:88-119 Now; [None] for what was not given.  The chain hash is not
    checked but dereferenced. *)
Definition tstate_now (h : hash) (chain : option hash) (prev : hash) (height : N) (trx : hashtree) (amount : N)
    (created : Z) : res tstate :=
  if (height =? 0)%N then Err
  else if (amount =? 0)%N then Err
  else match chain with
       | None => Panic
       | Some c => Ok (TState (Immutable h created) c prev height trx amount)
       end.
(** states/json_state.go:9-50 *)
Definition e_tstate (t : tstate) : res json :=
  jstruct [("hash", jhash (im_hash (ts_im t))); ("chain", jhash (ts_chain t)); ("previous", jhash (ts_prev t));
           ("height", juint (ts_height t)); ("transactions", e_jcompact (jcompact_of_tree (ts_trx t)));
           ("amount", juint (ts_amount t)); ("created_on", jtime (im_created (ts_im t)))]%string.
(** states/state.go:21-58 createStateFromJSON *)
Definition d_tstate (js : list json) : res tstate :=
  let! m := dstruct js in
  let! hs := field "hash" dstr m in
  let! cs := field "chain" dstr m in
  let! ps := field "previous" dstr m in
  let! height := field "height" duint m in
  let! trx := field "transactions" (dptr d_jcompact) m in
  let! amount := field "amount" duint m in
  let! created := field "created_on" dtime m in
  let! h := FromString hs in
  let! c := FromString cs in
  let! p := FromString ps in
  let! t := tree_of_jcompact trx in
  tstate_now h (Some c) p height t amount created.

(** ** Expenses *)
Section WithCurve.
Context {C : Curve}.

Definition jsig (s : ringsig C) : res json := jstr (ring_string C s).
Definition dsigs (js : list json) : res (list (ringsig C)) := let! ss := dlist dstr js in rmapM (ring_of_string C) ss.

(** expenses/expense.go:12-18 *)
Record texpense := TExpense {
  te_im : immutable; te_from : list hash; te_to : hash; te_sigs : list (ringsig C); te_remaining : option hash }.
(** expenses/builder.go:80-115 Now *)
Definition texpense_now (h : hash) (from : list hash) (to : hash) (sigs : list (ringsig C)) (rem : option hash)
    (created : Z) : res texpense :=
  match from, sigs with
  | _ :: _, _ :: _ => Ok (TExpense (Immutable h created) from to sigs rem)
  | _, _ => Err
  end.
(** expenses/json_expense.go:7-59 *)
Definition e_texpense (t : texpense) : res json :=
  jstruct [("hash", jhash (im_hash (te_im t))); ("from", jlist jhash (te_from t)); ("to", jhash (te_to t));
           ("signatures", jlist jsig (te_sigs t)); ("remaining", johash (te_remaining t));
           ("created_on", jtime (im_created (te_im t)))]%string.
(** expenses/expense.go:20-70 createExpenseFromJSON *)
Definition d_texpense (js : list json) : res texpense :=
  let! m := dstruct js in
  let! h := field "hash" dhash m in
  let! from := field "from" dhashes m in
  let! to := field "to" dhash m in
  let! sigs := field "signatures" dsigs m in
  let! rem := field "remaining" dohash m in
  let! created := field "created_on" dtime m in
  texpense_now h from to sigs rem created.
End WithCurve.
Arguments texpense C : clear implicits.
