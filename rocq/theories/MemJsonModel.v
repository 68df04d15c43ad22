(** The JSON forms of the objects of domain/memory/piastres: the JSON structs, their
    texts (MarshalJSON, UnmarshalJSON) and the conversions from and to objects.

    Decoding is done in two phases as in the code: json.Unmarshal fills a struct of
    strings, numbers and pointers, then create...FromJSON calls the builders.  A nil
    pointer that is dereferenced is [Panic].  As every builder is given a creation
    time here, the clock reading handed to it does not matter; it is 0. *)
From Verif Require Import Base HashModel SignModel EntitiesModel FloatModel PiastresModel
  JsonModel TimeModel FloatText.

(** ** Structs and their fields *)

Definition jstr (s : bytes) : res json := Ok (JStr s).
(** uint and uint64: strconv.AppendUint *)
Definition juint (n : N) : res json := Ok (JNum (ntoa n)).
Definition jlist {A} (e : A -> res json) (l : list A) : res json := let! js := rmapM e l in Ok (JArr js).
Definition jptr {A} (e : A -> res json) (o : option A) : res json :=
  match o with Some a => e a | None => Ok JNull end.
Definition jmember (kv : string * res json) : res (bytes * json) :=
  let! j := snd kv in Ok (s2b (fst kv), j).
Definition jstruct (l : list (string * res json)) : res json := let! m := rmapM jmember l in Ok (JObj m).
Definition field {A} (name : string) (d : list json -> res A) (m : list (bytes * json)) : res A :=
  d (jfield (s2b name) m).

(** a pointer that is dereferenced *)
Definition deref {A B} (f : A -> res B) (o : option A) : res B :=
  match o with Some a => f a | None => Panic end.

(** locks/json_lock.go:8-11 *)
Record jlock := JLock { jl_keys : list bytes; jl_created : Z }.
Definition e_lock (x : jlock) : res json :=
  jstruct [("pubkeys", jlist jstr (jl_keys x)); ("created_on", jtime (jl_created x))]%string.
Definition d_lock (js : list json) : res jlock :=
  let! m := dstruct js in
  let! keys := field "pubkeys" (dlist dstr) m in
  let! created := field "created_on" dtime m in
  Ok (JLock keys created).

(** bills/json_bill.go:10-14 *)
Record jbill := JBill { jb_lock : option jlock; jb_amount : N; jb_created : Z }.
Definition e_bill (x : jbill) : res json :=
  jstruct [("lock", jptr e_lock (jb_lock x)); ("amount", juint (jb_amount x));
           ("created_on", jtime (jb_created x))]%string.
Definition d_bill (js : list json) : res jbill :=
  let! m := dstruct js in
  let! lk := field "lock" (dptr d_lock) m in
  let! amount := field "amount" duint m in
  let! created := field "created_on" dtime m in
  Ok (JBill lk amount created).

(** expenses/json_content.go:10-15 *)
Record jcontent := JContent {
  jct_from : list (option jbill); jct_to : option jbill; jct_remaining : option jbill; jct_created : Z }.
Definition e_content (x : jcontent) : res json :=
  jstruct [("from", jlist (jptr e_bill) (jct_from x)); ("to", jptr e_bill (jct_to x));
           ("remaining", jptr e_bill (jct_remaining x)); ("created_on", jtime (jct_created x))]%string.
Definition d_content (js : list json) : res jcontent :=
  let! m := dstruct js in
  let! from := field "from" (dlist (dptr d_bill)) m in
  let! to := field "to" (dptr d_bill) m in
  let! rem := field "remaining" (dptr d_bill) m in
  let! created := field "created_on" dtime m in
  Ok (JContent from to rem created).

(** expenses/json_expense.go:4-7 *)
Record jexpense := JExpense { jex_content : option jcontent; jex_sigs : list bytes }.
Definition e_expense (x : jexpense) : res json :=
  jstruct [("content", jptr e_content (jex_content x)); ("signatures", jlist jstr (jex_sigs x))]%string.
Definition d_expense (js : list json) : res jexpense :=
  let! m := dstruct js in
  let! ct := field "content" (dptr d_content) m in
  let! sigs := field "signatures" (dlist dstr) m in
  Ok (JExpense ct sigs).

(** transactions/addresses/json_address.go:6-11 *)
Record jaddress := JAddress {
  ja_sender : bytes; ja_recipients : list bytes; ja_subject : bytes; ja_created : Z }.
Definition e_address (x : jaddress) : res json :=
  jstruct [("sender", jstr (ja_sender x)); ("recipients", jlist jstr (ja_recipients x));
           ("subject", jstr (ja_subject x)); ("created_on", jtime (ja_created x))]%string.
Definition d_address (js : list json) : res jaddress :=
  let! m := dstruct js in
  let! sender := field "sender" dstr m in
  let! recipients := field "recipients" (dlist dstr) m in
  let! subject := field "subject" dstr m in
  let! created := field "created_on" dtime m in
  Ok (JAddress sender recipients subject created).

(** transactions/json_transaction.go:11-16 *)
Record jtrx := JTrx {
  jtx_address : option jaddress; jtx_fees : list (option jexpense); jtx_bucket : bytes; jtx_created : Z }.
Definition e_trx (x : jtrx) : res json :=
  jstruct [("address", jptr e_address (jtx_address x)); ("fees", jlist (jptr e_expense) (jtx_fees x));
           ("bucket", jstr (jtx_bucket x)); ("created_on", jtime (jtx_created x))]%string.
Definition d_trx (js : list json) : res jtrx :=
  let! m := dstruct js in
  let! addr := field "address" (dptr d_address) m in
  let! fees := field "fees" (dlist (dptr d_expense)) m in
  let! bucket := field "bucket" dstr m in
  let! created := field "created_on" dtime m in
  Ok (JTrx addr fees bucket created).

(** genesis/json_genesis.go:10-16 *)
Record jgenesis := JGenesis {
  jg_bill : option jbill; jg_link : N; jg_base : N; jg_increase : float64; jg_created : Z }.
Definition e_genesis (x : jgenesis) : res json :=
  jstruct [("bill", jptr e_bill (jg_bill x)); ("link_difficulty", juint (jg_link x));
           ("block_difficulty_base", juint (jg_base x));
           ("block_difficulty_increase_per_transaction", jfloat (jg_increase x));
           ("created_on", jtime (jg_created x))]%string.
Definition d_genesis (js : list json) : res jgenesis :=
  let! m := dstruct js in
  let! b := field "bill" (dptr d_bill) m in
  let! lnk := field "link_difficulty" duint m in
  let! base := field "block_difficulty_base" duint m in
  let! inc := field "block_difficulty_increase_per_transaction" dfloat m in
  let! created := field "created_on" dtime m in
  Ok (JGenesis b lnk base inc created).

(** blocks/json_block.go:11-16 *)
Record jblock := JBlock {
  jbk_genesis : option jgenesis; jbk_trx : list (option jtrx); jbk_additional : N; jbk_created : Z }.
Definition e_block (x : jblock) : res json :=
  jstruct [("genesis", jptr e_genesis (jbk_genesis x)); ("transactions", jlist (jptr e_trx) (jbk_trx x));
           ("additional", juint (jbk_additional x)); ("created_on", jtime (jbk_created x))]%string.
Definition d_block (js : list json) : res jblock :=
  let! m := dstruct js in
  let! gen := field "genesis" (dptr d_genesis) m in
  let! trx := field "transactions" (dlist (dptr d_trx)) m in
  let! additional := field "additional" duint m in
  let! created := field "created_on" dtime m in
  Ok (JBlock gen trx additional created).

(** links/json_link.go:10-15 *)
Record jlink := JLink { jln_prev : bytes; jln_next : option jblock; jln_index : N; jln_created : Z }.
Definition e_link (x : jlink) : res json :=
  jstruct [("previous_link", jstr (jln_prev x)); ("next", jptr e_block (jln_next x));
           ("index", juint (jln_index x)); ("created_on", jtime (jln_created x))]%string.
Definition d_link (js : list json) : res jlink :=
  let! m := dstruct js in
  let! prev := field "previous_link" dstr m in
  let! next := field "next" (dptr d_block) m in
  let! index := field "index" duint m in
  let! created := field "created_on" dtime m in
  Ok (JLink prev next index created).

(** links/mined/json_link.go:10-14 *)
Record jmlink := JMLink { jml_link : option jlink; jml_mining : bytes; jml_created : Z }.
Definition e_mlink (x : jmlink) : res json :=
  jstruct [("link", jptr e_link (jml_link x)); ("mining", jstr (jml_mining x));
           ("created_on", jtime (jml_created x))]%string.
Definition d_mlink (js : list json) : res jmlink :=
  let! m := dstruct js in
  let! lnk := field "link" (dptr d_link) m in
  let! mining := field "mining" dstr m in
  let! created := field "created_on" dtime m in
  Ok (JMLink lnk mining created).

(** json.Marshal and json.Unmarshal of such a struct *)
Definition marshal {A} (e : A -> res json) (x : A) : res bytes := let! j := e x in Ok (jprint j).
Definition unmarshal {A} (d : list json -> res A) (s : bytes) : res A :=
  match jparse s with Some j => d [j] | None => Err end.

(** ** From and to objects *)
Section WithCurve.
Context {C : Curve}.

(** locks/json_lock.go:13-34, lock.go:20-37 *)
Definition js_lock (l : lock) : jlock := JLock (map hash_string (lk_keys l)) (im_created (lk_im l)).
Definition of_jlock (x : jlock) : res lock :=
  let! keys := rmapM FromString (jl_keys x) in
  lock_now 0 keys (Some (jl_created x)).

(** bills/json_bill.go:16-36, bill.go:18-30 *)
Definition js_bill (b : bill) : jbill := JBill (Some (js_lock (bl_lock b))) (bl_amount b) (im_created (bl_im b)).
Definition of_jbill (x : jbill) : res bill :=
  let! lk := deref of_jlock (jb_lock x) in
  bill_now 0 (Some lk) (jb_amount x) (Some (jb_created x)).

(** expenses/json_content.go:17-51, content.go:19-53 *)
Definition js_content (c : content) : jcontent :=
  JContent (map (fun b => Some (js_bill b)) (ct_from c)) (Some (js_bill (ct_to c)))
    (option_map js_bill (ct_remaining c)) (im_created (ct_im c)).
Definition of_jcontent (x : jcontent) : res content :=
  let! from := rmapM (deref of_jbill) (jct_from x) in
  let! to := deref of_jbill (jct_to x) in
  let! rem := match jct_remaining x with
              | None => Ok None
              | Some r => let! b := of_jbill r in Ok (Some (bl_lock b))
              end in
  content_now 0 (bl_amount to) from (Some (bl_lock to)) rem (Some (jct_created x)).

(** expenses/json_expense.go:9-30, expense.go:18-36 *)
Definition js_expense (e : expense) : jexpense :=
  JExpense (Some (js_content (ex_content e))) (map (ring_string C) (ex_sigs e)).
Definition of_jexpense (x : jexpense) : res expense :=
  let! ct := deref of_jcontent (jex_content x) in
  let! sigs := rmapM (ring_of_string C) (jex_sigs x) in
  expense_now 0 (Some ct) (Some sigs).

(** an optional hash as a string, "" for nil *)
Definition opt_hash_string (o : option hash) : bytes := match o with Some h => hash_string h | None => [] end.
Definition opt_of_string (s : bytes) : res (option hash) :=
  match s with [] => Ok None | _ => let! h := FromString s in Ok (Some h) end.

(** transactions/addresses/json_address.go:13-50, address.go:18-54 *)
Definition js_address (a : address) : jaddress :=
  JAddress (opt_hash_string (ad_sender a)) (map hash_string (ad_recipients a))
    (opt_hash_string (ad_subject a)) (im_created (ad_im a)).
Definition of_jaddress (x : jaddress) : res address :=
  let! sender := opt_of_string (ja_sender x) in
  let! recipients := rmapM FromString (ja_recipients x) in
  let! subject := opt_of_string (ja_subject x) in
  address_now 0 sender recipients subject (Some (ja_created x)).

(** transactions/json_transaction.go:18-59, transaction.go:20-58 *)
Definition js_trx (t : transaction) : jtrx :=
  JTrx (option_map js_address (tx_address t)) (map (fun e => Some (js_expense e)) (tx_fees t))
    (opt_hash_string (tx_bucket t)) (im_created (tx_im t)).
Definition of_jtrx (x : jtrx) : res transaction :=
  let! bucket := opt_of_string (jtx_bucket x) in
  let! fees := rmapM (deref of_jexpense) (jtx_fees x) in
  let! addr := match jtx_address x with
               | None => Ok None
               | Some a => let! a := of_jaddress a in Ok (Some a)
               end in
  transaction_now 0 addr bucket fees (Some (jtx_created x)).

(** genesis/json_genesis.go:18-52, genesis.go:18-33 *)
Definition js_genesis (g : genesis) : jgenesis :=
  JGenesis (Some (js_bill (gn_bill g))) (gn_link g) (gn_base g) (gn_increase g) (im_created (gn_im g)).
Definition of_jgenesis (x : jgenesis) : res genesis :=
  let! b := deref of_jbill (jg_bill x) in
  genesis_now 0 (jg_base x) (jg_increase x) (jg_link x) (Some b) (Some (jg_created x)).

(** blocks/json_block.go:18-49, block.go:20-45 *)
Definition js_block (b : block) : jblock :=
  JBlock (Some (js_genesis (bk_genesis b))) (map (fun t => Some (js_trx t)) (bk_trx b))
    (bk_additional b) (im_created (bk_im b)).
Definition of_jblock (x : jblock) : res block :=
  let! trx := rmapM (deref of_jtrx) (jbk_trx x) in
  let! gen := deref of_jgenesis (jbk_genesis x) in
  block_now 0 (Some gen) (jbk_additional x) trx (Some (jbk_created x)).

(** links/json_link.go:17-39, link.go:19-38 *)
Definition js_link (l : chain_link) : jlink :=
  JLink (hash_string (ln_prev l)) (Some (js_block (ln_next l))) (ln_index l) (im_created (ln_im l)).
Definition of_jlink (x : jlink) : res chain_link :=
  let! prev := FromString (jln_prev x) in
  let! next := deref of_jblock (jln_next x) in
  link_now 0 (Some prev) (Some next) (jln_index x) (Some (jln_created x)).

(** links/mined/json_link.go:16-35, link.go:18-30 *)
Definition js_mlink (l : mined_link) : jmlink :=
  JMLink (Some (js_link (ml_link l))) (ml_mining l) (im_created (ml_im l)).
Definition of_jmlink (x : jmlink) : res mined_link :=
  let! lk := deref of_jlink (jml_link x) in
  mined_link_now 0 (Some lk) (jml_mining x) (Some (jml_created x)).

(** MarshalJSON and UnmarshalJSON: locks/lock.go:102-126, bills/bill.go:67-92,
    expenses/content.go:119-145, expenses/expense.go:73-98, addresses/address.go:167-192,
    transactions/transaction.go:171-197, genesis/genesis.go:70-94, blocks/block.go:89-114,
    links/link.go:82-107, links/mined/link.go:67-91 *)
Definition lock_to_text (l : lock) := marshal e_lock (js_lock l).
Definition lock_of_text (s : bytes) : res lock := let! x := unmarshal d_lock s in of_jlock x.
Definition bill_to_text (b : bill) := marshal e_bill (js_bill b).
Definition bill_of_text (s : bytes) : res bill := let! x := unmarshal d_bill s in of_jbill x.
Definition content_to_text (c : content) := marshal e_content (js_content c).
Definition content_of_text (s : bytes) : res content := let! x := unmarshal d_content s in of_jcontent x.
Definition expense_to_text (e : expense) := marshal e_expense (js_expense e).
Definition expense_of_text (s : bytes) : res expense := let! x := unmarshal d_expense s in of_jexpense x.
Definition address_to_text (a : address) := marshal e_address (js_address a).
Definition address_of_text (s : bytes) : res address := let! x := unmarshal d_address s in of_jaddress x.
Definition trx_to_text (t : transaction) := marshal e_trx (js_trx t).
Definition trx_of_text (s : bytes) : res transaction := let! x := unmarshal d_trx s in of_jtrx x.
Definition genesis_to_text (g : genesis) := marshal e_genesis (js_genesis g).
Definition genesis_of_text (s : bytes) : res genesis := let! x := unmarshal d_genesis s in of_jgenesis x.
Definition block_to_text (b : block) := marshal e_block (js_block b).
Definition block_of_text (s : bytes) : res block := let! x := unmarshal d_block s in of_jblock x.
Definition link_to_text (l : chain_link) := marshal e_link (js_link l).
Definition link_of_text (s : bytes) : res chain_link := let! x := unmarshal d_link s in of_jlink x.
Definition mlink_to_text (l : mined_link) := marshal e_mlink (js_mlink l).
Definition mlink_of_text (s : bytes) : res mined_link := let! x := unmarshal d_mlink s in of_jmlink x.

(** links/mined/adapter.go:50-57 Encode: an error of json.Marshal gives "" *)
Definition encode_mlink (l : mined_link) : res bytes :=
  match mlink_to_text l with Ok s => Ok (b64_encode s) | Err => Ok [] | Panic => Panic end.
(** links/mined/adapter.go:34-47 Decode: the error of json.Unmarshal is dropped; [None]
    is the empty link struct (nil immutable, nil link, no mining) *)
Definition decode_mlink (s : bytes) : res (option mined_link) :=
  let! b := b64_decode s in
  match mlink_of_text b with Ok l => Ok (Some l) | Err => Ok None | Panic => Panic end.

End WithCurve.
