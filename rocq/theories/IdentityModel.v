(** Model of domain/memory/identities and domain/transfers/identities.

    As in PiastresModel.v a builder is a function from what its With... methods were
    given; nil and empty slices are both [[]], all the builders here treating the two
    alike.

    The collections wallets.Wallets and buckets.Buckets and the wallet bills have no
    implementation in the repository, only interfaces: a collection is the list given to
    its builder (what All returns), a wallet bill the values its methods return. *)
From Verif Require Import Base Sha512 HashModel EntitiesModel SignModel FloatModel PiastresModel
  JsonModel TimeModel FloatText MemJsonModel TransferModel StoreModel BucketModel.

Section WithCurve.
Context {C : Curve}.

(** ** Statement entries *)
(** domain/memory/identities/wallets/wallet/statements/entries/entry.go:11-16 *)
Record mentry := MEntry { en_im : immutable; en_name : bytes; en_trx : list transaction; en_description : bytes }.
Definition en_hash (e : mentry) : hash := im_hash (en_im e).
(** entries/builder.go:67-103 Now *)
Definition entry_now (now : Z) (name : bytes) (trx : list transaction) (description : bytes) (created : option Z) : res mentry :=
  guard negb (bseq name []) in
  guard (0 <? length trx)%nat in
  let! h := FromMultiBytes (name :: map tx_hash trx) in
  let! im := immutable_now now (Some h) created in
  Ok (MEntry im name trx description).

(** ** Statements *)
(** statements/statement.go:11-15 *)
Record statement := Statement { sm_im : immutable; sm_incoming : list mentry; sm_outgoing : list mentry }.
Definition sm_hash (s : statement) : hash := im_hash (sm_im s).
(** statements/builder.go:58-103 Now *)
Definition statement_now (now : Z) (incoming outgoing : list mentry) (created : option Z) : res statement :=
  let! h := FromMultiBytes (map en_hash incoming ++ map en_hash outgoing) in
  let! im := immutable_now now (Some h) created in
  Ok (Statement im incoming outgoing).

(** ** Wallets *)
(** wallet/bills/sdk.go:22-28, only an interface *)
Record wbill := WBill { wb_hash : hash; wb_bill : bill; wb_pk : Sc C; wb_ring : list (Pt C) }.
(** wallet/wallet.go:12-18 *)
Record wallet := Wallet {
  wt_im : immutable; wt_name : bytes; wt_statement : statement; wt_bills : list wbill; wt_description : bytes }.
Definition wt_hash (w : wallet) : hash := im_hash (wt_im w).
(** wallet/builder.go:76-123 Now: line 81 rejects a statement, line 91 uses it *)
Definition wallet_now (now : Z) (name : bytes) (st : option statement) (bills : list wbill) (description : bytes)
    (created : option Z) : res wallet :=
  guard negb (bseq name []) in
  match st with
  | Some _ => Err
  | None =>
      let! st := match st with Some s => Ok s | None => Panic end in
      let! h := FromMultiBytes (name :: sm_hash st :: map wb_hash bills) in
      let! im := immutable_now now (Some h) created in
      Ok (Wallet im name st bills description)
  end.

(** ** Buckets of an identity *)
(** buckets/bucket/bucket.go:13-18; the private key is its encoded form *)
Record ibucket := IBucket { ib_im : immutable; ib_bucket : bucket; ib_path : bytes; ib_key : bytes }.
Definition ib_hash (b : ibucket) : hash := im_hash (ib_im b).
(** buckets/bucket/builder.go:74-108 Now; [abs] is filepath.Abs and [missing] is
    os.IsNotExist of the error of os.Stat *)
Definition ibucket_now (abs : bytes -> res bytes) (missing : bytes -> bool)
    (now : Z) (b : option bucket) (path : bytes) (key : option bytes) (created : option Z) : res ibucket :=
  match b with
  | None => Err
  | Some b =>
      guard negb (bseq path []) in
      match key with
      | None => Err
      | Some key =>
          let! path := abs path in
          guard negb (missing path) in
          let! h := FromBytes path in
          let! im := immutable_now now (Some h) created in
          Ok (IBucket im b path key)
      end
  end.

(** ** Identities *)
(** identity.go:12-19 *)
Record identity := Identity {
  id_mu : mutable; id_seed : bytes; id_name : bytes; id_root : bytes;
  id_wallets : list wallet; id_buckets : list ibucket }.
Definition id_hash (i : identity) : hash := mu_hash (id_mu i).
(** builder.go:105-167 Now; [now1] and [now2] are the readings of the mutable builder *)
Definition identity_now (now1 now2 : Z) (seed name root : bytes) (ws : list wallet) (bs : list ibucket)
    (created updated : option Z) : res identity :=
  guard negb (bseq seed []) in
  guard negb (bseq name []) in
  guard negb (bseq root []) in
  let! h := FromMultiBytes ([seed; name; root] ++ map wt_hash ws ++ map ib_hash bs) in
  let! mu := mutable_now now1 now2 (Some h) created updated in
  Ok (Identity mu seed name root ws bs).

(** ** The stored forms: domain/transfers/identities *)

(** wallets/statements/entries/entry.go:11-16 *)
Record tentry := TEntry { te_im : immutable; te_name : bytes; te_trx : list hash; te_description : bytes }.
(** entries/builder.go:71-98 Now *)
Definition tentry_now (h : hash) (name : bytes) (trx : list hash) (description : bytes) (created : Z) : res tentry :=
  guard negb (bseq name []) in
  guard (0 <? length trx)%nat in
  Ok (TEntry (Immutable h created) name trx description).
(** entries/json_entry.go:5-47 (the name has the key "string") *)
Definition e_tentry (t : tentry) : res json :=
  jstruct [("hash", jhash (im_hash (te_im t))); ("string", jstr (te_name t)); ("transactions", jlist jhash (te_trx t));
           ("description", jstr (te_description t)); ("created_on", jtime (im_created (te_im t)))]%string.
(** entries/entry.go:18-46 createEntryFromJSON *)
Definition d_tentry (js : list json) : res tentry :=
  let! m := dstruct js in
  let! h := field "hash" dhash m in
  let! name := field "string" dstr m in
  let! trx := field "transactions" dhashes m in
  let! description := field "description" dstr m in
  let! created := field "created_on" dtime m in
  tentry_now h name trx description created.

(** wallets/statements/statement.go:11-15 *)
Record tstatement := TStatement { ts_im : immutable; ts_incoming : list hash; ts_outgoing : list hash }.
(** statements/builder.go:63-94 Now *)
Definition tstatement_now (h : hash) (incoming outgoing : list hash) (created : Z) : res tstatement :=
  Ok (TStatement (Immutable h created) incoming outgoing).
(** statements/json_statement.go:5-49 *)
Definition e_tstatement (t : tstatement) : res json :=
  jstruct [("hash", jhash (im_hash (ts_im t))); ("incoming", jlist jhash (ts_incoming t));
           ("outgoing", jlist jhash (ts_outgoing t)); ("created_on", jtime (im_created (ts_im t)))]%string.
(** statements/statement.go:17-57 createStatementFromJSON *)
Definition d_tstatement (js : list json) : res tstatement :=
  let! m := dstruct js in
  let! h := field "hash" dhash m in
  let! incoming := field "incoming" dhashes m in
  let! outgoing := field "outgoing" dhashes m in
  let! created := field "created_on" dtime m in
  tstatement_now h incoming outgoing created.

(** wallets/bills/bill.go:12-16 *)
Record twbill := TWBill { tw_im : immutable; tw_bill : hash; tw_pks : list (Sc C) }.
(** wallets/bills/builder.go:64-87 Now *)
Definition twbill_now (h b : hash) (pks : list (Sc C)) (created : Z) : res twbill :=
  guard (0 <? length pks)%nat in
  Ok (TWBill (Immutable h created) b pks).
Definition jpk (x : Sc C) : res json := jstr (sstr C x).
Definition dpks (js : list json) : res (list (Sc C)) := let! ss := dlist dstr js in rmapM (scalar_of_string C) ss.
(** wallets/bills/json_bill.go:5-41 *)
Definition e_twbill (t : twbill) : res json :=
  jstruct [("hash", jhash (im_hash (tw_im t))); ("bill", jhash (tw_bill t)); ("pks", jlist jpk (tw_pks t));
           ("created_on", jtime (im_created (tw_im t)))]%string.
(** wallets/bills/bill.go:18-47 createBillFromJSON *)
Definition d_twbill (js : list json) : res twbill :=
  let! m := dstruct js in
  let! h := field "hash" dhash m in
  let! b := field "bill" dhash m in
  let! pks := field "pks" dpks m in
  let! created := field "created_on" dtime m in
  twbill_now h b pks created.

(** wallets/wallet.go:11-17 *)
Record twallet := TWallet { tv_im : immutable; tv_name : bytes; tv_statement : hash; tv_bills : list hash; tv_description : bytes }.
(** wallets/builder.go:79-114 Now: line 88 rejects a statement, lines 102-113 use it *)
Definition twallet_now (h : option hash) (name : bytes) (st : option hash) (bills : list hash) (description : bytes)
    (created : Z) : res twallet :=
  match h with
  | None => Err
  | Some h =>
      guard negb (bseq name []) in
      match st with
      | Some _ => Err
      | None =>
          let! st := match st with Some s => Ok s | None => Panic end in
          Ok (TWallet (Immutable h created) name st bills description)
      end
  end.
(** wallets/json_wallet.go:5-54 *)
Definition e_twallet (t : twallet) : res json :=
  jstruct [("hash", jhash (im_hash (tv_im t))); ("name", jstr (tv_name t)); ("description", jstr (tv_description t));
           ("statement", jhash (tv_statement t)); ("bills", jlist jhash (tv_bills t));
           ("created_on", jtime (im_created (tv_im t)))]%string.
(** wallets/wallet.go:19-56 createWalletFromJSON and 159-177 UnmarshalJSON, which does not
    copy the description *)
Definition d_twallet (js : list json) : res twallet :=
  let! m := dstruct js in
  let! h := field "hash" dhash m in
  let! name := field "name" dstr m in
  let! description := field "description" dstr m in
  let! st := field "statement" dhash m in
  let! bills := field "bills" dhashes m in
  let! created := field "created_on" dtime m in
  let! w := twallet_now (Some h) name (Some st) bills description created in
  Ok (TWallet (tv_im w) (tv_name w) (tv_statement w) (tv_bills w) []).

(** identity.go:11-18 *)
Record tidentity := TIdentity {
  td_mu : mutable; td_seed : bytes; td_name : bytes; td_root : bytes; td_wallets : list hash; td_buckets : list hash }.
(** builder.go:95-130 Now *)
Definition tidentity_now (now1 now2 : Z) (h : hash) (seed name root : bytes) (ws bs : list hash)
    (created updated : option Z) : res tidentity :=
  guard negb (bseq seed []) in
  guard negb (bseq name []) in
  guard negb (bseq root []) in
  let! mu := mutable_now now1 now2 (Some h) created updated in
  Ok (TIdentity mu seed name root ws bs).
(** json_identity.go:5-62: the time of the last update is not written *)
Definition e_tidentity (t : tidentity) : res json :=
  jstruct [("hash", jhash (mu_hash (td_mu t))); ("seed", jstr (td_seed t)); ("name", jstr (td_name t));
           ("root", jstr (td_root t)); ("wallets", jlist jhash (td_wallets t)); ("buckets", jlist jhash (td_buckets t));
           ("created_on", jtime (mu_created (td_mu t)))]%string.
(** identity.go:20-63 createIdentityFromJSON; [now] is the reading of the clock for the
    time of the last update *)
Definition d_tidentity (now : Z) (js : list json) : res tidentity :=
  let! m := dstruct js in
  let! h := field "hash" dhash m in
  let! seed := field "seed" dstr m in
  let! name := field "name" dstr m in
  let! root := field "root" dstr m in
  let! ws := field "wallets" dhashes m in
  let! bs := field "buckets" dhashes m in
  let! created := field "created_on" dtime m in
  tidentity_now now now h seed name root ws bs (Some created) None.

(** helper.go:11-20 makeFileName *)
Definition identity_file (h : hash) (seed : bytes) : bytes := hex_encode (sha512 (hash_string h ++ seed)).

(** ** The stores.  Each of the five has a file service of its own; [idisk] is the disk of
    the one in question, a map from names to contents (see C28). *)
Definition idisk := bytes -> option bytes.
Definition iput (d : idisk) (n c : bytes) : idisk := fun n' => if bseq n n' then Some c else d n'.
Definition irem (d : idisk) (n : bytes) : idisk := fun n' => if bseq n n' then None else d n'.
Definition iget (d : idisk) (n : bytes) : res bytes := match d n with Some c => Ok c | None => Err end.

(** service.go:24-36 Save *)
Definition tidentity_save (t : tidentity) (d : idisk) : res idisk :=
  let! js := marshal e_tidentity t in
  Ok (iput d (identity_file (mu_hash (td_mu t)) (td_seed t)) js).
(** service.go:39-46 Delete, libs/file/file_disk_service.go:35-43 os.Remove *)
Definition tidentity_delete (t : tidentity) (d : idisk) : res idisk :=
  let n := identity_file (mu_hash (td_mu t)) (td_seed t) in
  match d n with Some _ => Ok (irem d n) | None => Err end.
(** repository.go:23-35 Retrieve *)
Definition tidentity_retrieve (now : Z) (h : hash) (seed : bytes) (d : idisk) : res tidentity :=
  let! js := iget d (identity_file h seed) in unmarshal (d_tidentity now) js.

(** wallets/bills, wallets/statements, wallets/statements/entries and wallets:
    service.go:22-34 Save and Delete, repository.go:23-30 Retrieve *)
Definition part_save {T} (enc : T -> res json) (hash_of : T -> hash) (t : T) (d : idisk) : res idisk :=
  let! js := marshal enc t in Ok (iput d (hash_string (hash_of t)) js).
Definition part_delete {T} (hash_of : T -> hash) (t : T) (d : idisk) : res idisk :=
  match d (hash_string (hash_of t)) with Some _ => Ok (irem d (hash_string (hash_of t))) | None => Err end.
Definition part_retrieve {T} (dec : list json -> res T) (h : hash) (d : idisk) : res T :=
  let! js := iget d (hash_string h) in unmarshal dec js.
End WithCurve.
