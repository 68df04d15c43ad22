(** Properties of the applications of identities, of the genesis and of bucket
    transactions (C48, C49, C50, C56, C69 - C72). *)
From Verif Require Import Base BaseFacts HashModel HashSpec HashProofs EntitiesModel SignModel SignSpec ToyCurve FloatModel PiastresModel PiastresSpec
  BucketModel BucketSpec IdentityModel IdentitySpec IdentityProofs AppModel AppSpec AppProofs.

(** The laws of the store of identities can be met. *)
Lemma list_store_has_laws : forall C : Curve, istore_laws (C := C) list_store.
Proof. exact @list_store_laws. Qed.

(** a store for the cases: what is created with it has a text of 64 bytes, its own hash *)
Definition root64 : bytes := repeat x2f 55.
Definition case_new : res (is_state (list_store (C := toy))) := new_identity list_store 1 2 (s2b "ann") (s2b "secret") (s2b "banana") root64 [].
Definition same_bytes (a b : bytes) : bool := bseq a b.

(** ** C48: whoever created an identity can authenticate *)
(** With the password and the seed that the identity was created with, Authenticate gives
    what it gave before the identity existed, unless the two are equal; ... *)
Theorem C48_refuted : forall (C : Curve) (st : istore (C := C)), istore_laws st ->
  forall now1 now2 name password seed root s s', new_identity st now1 now2 name password seed root s = Ok s' -> password <> seed ->
  authenticate st name seed password s' = authenticate st name seed password s.
Proof. exact @authenticate_swapped. Qed.
Print Assumptions C48_refuted.
(** ... with the two exchanged it succeeds, but then nothing can be retrieved (unless an
    identity with the seed as its password existed already). *)
Theorem C48_refuted_exchanged : forall (C : Curve) (st : istore (C := C)), istore_laws st ->
  forall now1 now2 name password seed root s s', new_identity st now1 now2 name password seed root s = Ok s' -> password <> seed ->
  exists a, authenticate st name password seed s' = Ok a /\ iapp_retrieve st a s' = is_retrieve st s name seed seed.
Proof. exact @authenticate_exchanged. Qed.
Print Assumptions C48_refuted_exchanged.
(** If the password is the seed, all is well. *)
Theorem C48_equal_partial : forall (C : Curve) (st : istore (C := C)), istore_laws st ->
  forall now1 now2 name password root s s', new_identity st now1 now2 name password password root s = Ok s' ->
  exists a i, authenticate st name password password s' = Ok a /\ iapp_retrieve st a s' = Ok i /\
    id_name i = name /\ id_seed i = password /\ id_root i = root.
Proof. exact @authenticate_equal. Qed.
Print Assumptions C48_equal_partial.
Example C48_case :
  match case_new with
  | Ok s =>
      match authenticate list_store (s2b "ann") (s2b "banana") (s2b "secret") s,
            authenticate list_store (s2b "ann") (s2b "secret") (s2b "banana") s with
      | Err, Ok a => match iapp_retrieve list_store a s with Err => true | _ => false end
      | _, _ => false
      end
  | _ => false
  end = true /\
  match new_identity (C := toy) list_store 1 2 (s2b "ann") (s2b "banana") (s2b "banana") root64 [] with
  | Ok s => match authenticate list_store (s2b "ann") (s2b "banana") (s2b "banana") s with
            | Ok a => match iapp_retrieve list_store a s with Ok i => bseq (id_root i) root64 | _ => false end | _ => false end
  | _ => false
  end = true.
Proof. split; vm_compute; reflexivity. Qed.

(** ** C49: updating an identity *)
(** After every successful Update the stored identity has lost its wallets, its buckets and
    its creation time; ... *)
Theorem C49_refuted_lost : forall (C : Curve) (st : istore (C := C)), istore_laws st ->
  forall now1 now2 u a s a' s' i, iapp_retrieve st a s = Ok i -> iapp_update st now1 now2 u a s = Ok (a', s') ->
  exists i', is_retrieve st s' (or_else (up_name u) (ia_name a)) (or_else (up_password u) (ia_password a)) (or_else (up_seed u) (ia_seed a)) = Ok i' /\
    id_root i' = or_else (up_root u) (id_root i) /\ id_wallets i' = [] /\ id_buckets i' = [] /\
    mu_created (id_mu i') = now1 /\ mu_updated (id_mu i') = now2.
Proof. exact @update_stored. Qed.
Print Assumptions C49_refuted_lost.
(** ... and after a new name or seed the application does not find it any more. *)
Theorem C49_refuted_unfindable : forall (C : Curve) (st : istore (C := C)), istore_laws st ->
  forall now1 now2 u a s a' s', iapp_update st now1 now2 u a s = Ok (a', s') -> up_password u = None ->
  or_else (up_name u) (ia_name a) <> ia_name a \/ or_else (up_seed u) (ia_seed a) <> ia_seed a ->
  iapp_retrieve st a' s' = Err.
Proof. exact @update_unfindable. Qed.
Print Assumptions C49_refuted_unfindable.
(** With the name and the seed unchanged it does, also with a new password. *)
Theorem C49_kept_partial : forall (C : Curve) (st : istore (C := C)), istore_laws st ->
  forall now1 now2 u a s a' s' i, iapp_retrieve st a s = Ok i -> iapp_update st now1 now2 u a s = Ok (a', s') ->
  or_else (up_name u) (ia_name a) = ia_name a -> or_else (up_seed u) (ia_seed a) = ia_seed a ->
  exists i', iapp_retrieve st a' s' = Ok i' /\ id_name i' = id_name i /\ id_seed i' = id_seed i /\ id_root i' = or_else (up_root u) (id_root i).
Proof. exact @update_keeps. Qed.
Print Assumptions C49_kept_partial.
(** A deleted identity is gone, and no other one. *)
Theorem C49_delete_partial : forall (C : Curve) (st : istore (C := C)), istore_laws st ->
  forall a s s', iapp_delete st a s = Ok s' -> iapp_retrieve st a s' = Err /\
  (forall n q d, (n, q, d) <> (ia_name a, ia_password a, ia_seed a) -> is_retrieve st s' n q d = is_retrieve st s n q d).
Proof. exact @deleted. Qed.
Print Assumptions C49_delete_partial.
Definition ann : iapp := IApp (s2b "ann") (s2b "secret") (s2b "banana").
Definition case_ibucket (path : bytes) : ibucket :=
  IBucket (Immutable (from_bytes path) 3) (Bucket (Immutable (repeat x05 64) 3) []) path (s2b "key").
Definition case_identity : @identity toy :=
  Identity (Mutable (repeat x04 64) 1 2) (s2b "banana") (s2b "ann") root64 [] [case_ibucket (repeat x61 64)].
Definition case_store : is_state (list_store (C := toy)) := [(s2b "secret", case_identity)].
Definition after_update (u : update) : res (nat * Z * bool) :=
  match iapp_update list_store 8 9 u ann case_store with
  | Ok (a, s) => match iapp_retrieve list_store a s with Ok i => Ok (length (id_buckets i), mu_created (id_mu i), bseq (id_root i) root64) | Err => Err | Panic => Panic end
  | Err => Panic | Panic => Panic
  end.
Example C49_case :
  after_update (Update None None (Some (s2b "new")) None) = Ok (0%nat, 8%Z, true) /\
  after_update (Update None (Some (s2b "bob")) None None) = Err /\
  match iapp_delete list_store ann case_store with Ok s => match iapp_retrieve list_store ann s with Err => true | _ => false end | _ => false end = true.
Proof. split; [|split]; vm_compute; reflexivity. Qed.

(** ** C50: initialising the chain *)
(** With the wallet builder of the repository Init never succeeds and writes nothing: no
    genesis is ever created. *)
Theorem C50_refuted : forall (C : Curve) (st : istore (C := C)) (G : Type) g_retrieve g_save mk_wbill key now later name password seed wname
    amount base increase link (s : is_state st * G),
  exists o, genesis_init st g_retrieve g_save mk_wbill repo_wallet key now later name password seed wname amount base increase link s = (o, [s]) /\ o <> Ok tt.
Proof. intros. apply init_never. Qed.
Print Assumptions C50_refuted.
(** With any other wallet builder it does not succeed for a new identity whose password is
    not its seed (the two are exchanged), ... *)
Theorem C50_refuted_exchanged : forall (C : Curve) (st : istore (C := C)), istore_laws st -> forall (G : Type) g_retrieve g_save
    mk_wbill mk_wallet key now later now1 now2 name password seed root wname amount base increase link s s' (g : G),
  new_identity st now1 now2 name password seed root s = Ok s' -> password <> seed -> is_retrieve st s name seed password = Err ->
  exists o, genesis_init st g_retrieve g_save mk_wbill mk_wallet key now later name password seed wname amount base increase link (s', g) = (o, [(s', g)]) /\ o <> Ok tt.
Proof. exact @init_swapped. Qed.
Print Assumptions C50_refuted_exchanged.
(** ... and if it succeeds there is a moment at which the identity already owns the wallet
    with the bill of a genesis that does not exist.  A process that stopped there can only
    create a second such wallet. *)
Theorem C50_refuted_crash : forall (C : Curve) (st : istore (C := C)), istore_laws st -> forall (G : Type) g_retrieve g_save
    mk_wbill mk_wallet key now later name password wname amount base increase link (s : is_state st * G) states i,
  is_retrieve st (fst s) name password password = Ok i ->
  genesis_init st g_retrieve g_save mk_wbill mk_wallet key now later name password password wname amount base increase link s = (Ok tt, states) ->
  exists s1 i1 w, nth_error states 1 = Some (s1, snd s) /\ g_retrieve (snd s) = Err /\
    is_retrieve st s1 name password password = Ok i1 /\ id_wallets i1 = id_wallets i ++ [w] /\
    forall mk_wbill' mk_wallet' key' now' later' wname' amount' base' increase' link' states',
      genesis_init st g_retrieve g_save mk_wbill' mk_wallet' key' now' later' name password password wname' amount' base' increase' link' (s1, snd s) = (Ok tt, states') ->
      exists s2 i2 w', nth_error states' 2 = Some s2 /\ is_retrieve st (fst s2) name password password = Ok i2 /\
        id_wallets i2 = id_wallets i ++ [w; w'].
Proof. exact @init_crash. Qed.
Print Assumptions C50_refuted_crash.
(** There is no second genesis. *)
Theorem C50_once_partial : forall (C : Curve) (st : istore (C := C)) (G : Type) g_retrieve g_save
    mk_wbill mk_wallet key now later name password seed wname amount base increase link (s : is_state st * G) g,
  g_retrieve (snd s) = Ok g ->
  genesis_init st g_retrieve g_save mk_wbill mk_wallet key now later name password seed wname amount base increase link s = (Err, [s]).
Proof. intros C st G g_retrieve g_save mk_wbill mk_wallet key now later name password seed wname amount base increase link s g E. unfold genesis_init. rewrite E. reflexivity. Qed.
Print Assumptions C50_once_partial.
Definition case_wbill (b : bill) (k : Sc toy) (t : Z) : res (@wbill toy) := Ok (WBill (C := toy) (bl_hash b) b k [public_key toy k]).
Definition case_wallet (n : bytes) (bs : list (@wbill toy)) (t : Z) : res (@wallet toy) :=
  Ok (Wallet (C := toy) (Immutable (repeat x03 64) t) n (Statement (C := toy) (Immutable (repeat x02 64) t) [] []) bs []).
Definition gstore := option genesis.
Definition gs_retrieve (s : gstore) : res genesis := match s with Some g => Ok g | None => Err end.
Definition gs_save (g : genesis) (s : gstore) : res gstore := match s with Some _ => Err | None => Ok (Some g) end.
Definition owned (s : is_state (list_store (C := toy)) * gstore) : nat * bool :=
  (match is_retrieve list_store (fst s) (s2b "ann") (s2b "banana") (s2b "banana") with Ok i => length (id_wallets i) | _ => 99%nat end,
   match snd s with Some _ => true | None => false end).
Definition init_case mkw (s : is_state (list_store (C := toy)) * gstore) :=
  genesis_init list_store gs_retrieve gs_save case_wbill mkw (mk 5) 10 11 (s2b "ann") (s2b "banana") (s2b "banana") (s2b "first") 100 1 (f_of_Z 2) 3 s.
Definition ann2 : is_state (list_store (C := toy)) * gstore := ([(s2b "banana", case_identity)], None).
Example C50_case :
  map owned (snd (init_case case_wallet ann2)) = [(0, false); (1, false); (1, true)]%nat /\
  match nth_error (snd (init_case case_wallet ann2)) 1 with
  | Some s => map owned (snd (init_case case_wallet s)) = [(1, false); (2, false); (2, true)]%nat
  | None => False
  end /\ map owned (snd (init_case repo_wallet ann2)) = [(0, false)]%nat.
Proof. split; [|split]; vm_compute; reflexivity. Qed.

(** ** C56: a bucket transaction with fees *)
(** The application signs the hash of the content of the expense, but the expense is
    verified with the hash of the lock of each bill: a fee is accepted only by an explicit
    coincidence of hashes, for each bill. *)
Theorem C56_refuted : forall (C : Curve) red zero sadd, CurveLaws C red zero sadd ->
  forall wfetch additional d f e wbs, wfetch (fe_amount f) = Ok wbs -> Forall (good_wbill red) wbs -> good_fee f ->
  fee_expense wfetch additional d f = Ok e -> wbs <> [] /\
  Forall2 (fun wb sig =>
    challenge_collision C (last_input C (signed_text e) (rs_ring sig) (rs_s sig) (rs_e sig))
                          (last_input C (verified_text wb) (rs_ring sig) (rs_s sig) (rs_e sig)) \/
    hash_coincidence (content_text (ex_content e)) (lock_text (bl_lock (wb_bill wb)))) wbs (ex_sigs e).
Proof. exact @fee_collides. Qed.
Print Assumptions C56_refuted.
(** A fee that is the whole worth of the bills is refused always, ... *)
Theorem C56_refuted_whole : forall (C : Curve) wfetch additional d f (wbs : list (@wbill C)), wfetch (fe_amount f) = Ok wbs ->
  total_u64 (map wb_bill wbs) = fe_amount f -> forall e, fee_expense wfetch additional d f <> Ok e.
Proof. exact @fee_whole. Qed.
Print Assumptions C56_refuted_whole.
(** ... and an application without additional keys, or with a wallet that finds no bills
    and no error, crashes. *)
Theorem C56_refuted_crashes : forall (C : Curve) wfetch additional d f (wbs : list (@wbill C)), wfetch (fe_amount f) = Ok wbs ->
  (additional <= 0)%Z \/ wbs = [] -> fee_expense wfetch additional d f = Panic.
Proof. exact @fee_panics. Qed.
Print Assumptions C56_refuted_crashes.
(** Without fees the transaction is made and the identity is saved. *)
Theorem C56_no_fees_partial : forall (C : Curve) (st : istore (C := C)) bfetch wfetch transact additional now a path s i b i' s',
  iapp_retrieve st a s = Ok i -> bfetch i path = Ok b ->
  transact (Transaction (Immutable (from_bytes (ib_hash b)) now) None (Some (ib_hash b)) []) i = Ok i' ->
  is_update st (id_hash i) i' (ia_password a) (ia_password a) s = Ok s' ->
  bucket_transaction st bfetch wfetch transact additional now [] a path [] s =
    Ok (Transaction (Immutable (from_bytes (ib_hash b)) now) None (Some (ib_hash b)) [], s').
Proof. exact @bucket_no_fees. Qed.
Print Assumptions C56_no_fees_partial.
(** a good bill: on the toy curve, with its 251 challenges, the fee 289 happens to be
    accepted, the fee 290 is not *)
Definition own_lock : res lock := lock_now 0 [pstr toy (mk 5)] None.
Definition own_wbill : res (@wbill toy) :=
  rbind own_lock (fun l => rbind (bill_now 0 (Some l) 1000 None) (fun b => Ok (WBill (C := toy) (repeat x01 64) b (mk 5) [mk 5]))).
Definition payee : lock := Lock (Immutable (repeat x07 64) 3) [repeat x07 64].
Definition case_draw (n k : Z) : @draw toy := Draw (C := toy) n (mk k) (fun l => l) 4 5.
Definition try_fee (amount : N) (additional : Z) : res bool :=
  rbind own_wbill (fun wb => rbind (fee_expense (fun _ => Ok [wb]) additional (case_draw 0 8) (Fee amount payee)) (fun _ => Ok true)).
Lemma own_wbill_good : forall wb, own_wbill = Ok wb -> good_wbill (fun _ => True) wb /\ good_fee (Fee 289 payee).
Proof.
  intros wb E. unfold own_wbill in E. apply rbind_Ok in E as (l & El & E). apply rbind_Ok in E as (b & Eb & E). injection E as <-.
  assert (F : Forall hash64 [pstr toy (mk 5)]) by (constructor; [vm_compute; reflexivity|constructor]).
  split; [|split; [reflexivity|vm_compute; reflexivity]]. split; [exact Logic.I|]. cbn [wb_bill]. split.
  - exists 0%Z, l, 1000%N, None. split; [|split; [reflexivity|exact Eb]].
    apply PiastresProofs.lock_now_iff in El as (_ & _ & ->). apply from_bytes_length.
  - apply PiastresProofs.bill_now_iff in Eb as (l' & El' & _ & ->). injection El' as <-. cbn [bl_lock]. exists 0%Z, [pstr toy (mk 5)], None. split; assumption.
Qed.
Example C56_case : try_fee 289 3 = Ok true /\ try_fee 290 3 = Err /\ try_fee 290 0 = Panic.
Proof. split; [|split]; vm_compute; reflexivity. Qed.

(** ** C69: what a bucket transaction commits to *)
(** It names the hash of the path at which the bucket was added, whatever is in the bucket. *)
Theorem C69_refuted : forall (C : Curve) (st : istore (C := C)) bfetch wfetch transact additional now draws a path fees s t s',
  (forall i p b, bfetch i p = Ok b -> built_ibucket b /\ ib_path b = p) ->
  bucket_transaction st bfetch wfetch transact additional now draws a path fees s = Ok (t, s') ->
  tx_bucket t = Some (from_bytes path).
Proof. exact @bucket_path. Qed.
Print Assumptions C69_refuted.
(** the rest of the claim: two transactions with the same bucket hash name the same path *)
Theorem C69_path_partial : forall (C : Curve) (st1 st2 : istore (C := C)) bfetch1 bfetch2 wfetch1 wfetch2 transact1 transact2 additional1 additional2
    now1 now2 draws1 draws2 a1 a2 path1 path2 fees1 fees2 s1 s2 t1 t2 s1' s2',
  (forall i p b, bfetch1 i p = Ok b -> built_ibucket b /\ ib_path b = p) -> (forall i p b, bfetch2 i p = Ok b -> built_ibucket b /\ ib_path b = p) ->
  bucket_transaction st1 bfetch1 wfetch1 transact1 additional1 now1 draws1 a1 path1 fees1 s1 = Ok (t1, s1') ->
  bucket_transaction st2 bfetch2 wfetch2 transact2 additional2 now2 draws2 a2 path2 fees2 s2 = Ok (t2, s2') ->
  tx_bucket t1 = tx_bucket t2 -> path1 = path2 \/ hash_coincidence path1 path2.
Proof.
  intros until s2'. intros F1 F2 E1 E2 H. apply bucket_path in E1, E2; [|exact F2|exact F1]. apply from_bytes_inj. congruence.
Qed.
Print Assumptions C69_path_partial.
Definition path_fetch (i : @identity toy) (p : bytes) : res ibucket :=
  match find (fun b => bseq (ib_path b) p) (id_buckets i) with Some b => Ok b | None => Err end.
Definition with_content (x : byte) : is_state (list_store (C := toy)) :=
  [(s2b "secret", with_buckets case_identity [IBucket (Immutable (repeat x61 64) 3) (Bucket (Immutable (repeat x 64) 3) []) (repeat x61 64) []])].
Definition named (s : is_state (list_store (C := toy))) : res (bool * bool) :=
  rbind (bucket_transaction list_store path_fetch (fun _ _ => Err) (fun _ i => Ok i) 3 7 [] ann (repeat x61 64) [] s)
    (fun ts => Ok (match tx_bucket (fst ts) with Some h => bseq h (from_bytes (repeat x61 64)) | None => false end, bseq (tx_hash (fst ts)) (repeat x61 64))).
Example C69_case : named (with_content x01) = Ok (true, true) /\ named (with_content x02) = Ok (true, true).
Proof. split; vm_compute; reflexivity. Qed.

(** ** C70: the hash of a stored identity *)
(** After a bucket was added the identity is stored with its old hash, which is not the
    hash of what it holds now; ... *)
Theorem C70_refuted : forall (C : Curve) (st : istore (C := C)), istore_laws st ->
  forall (B : Type) read abs missing key bu_add now later a path (s : is_state st * B) s' i,
  (forall b bs bs', bu_add b bs = Ok bs' -> bs' = bs ++ [b]) ->
  iapp_retrieve st a (fst s) = Ok i -> id_hash i = from_bytes (identity_text i) ->
  bucket_add st read abs missing key bu_add now later a path s = Ok s' ->
  exists i', iapp_retrieve st a (fst s') = Ok i' /\ id_hash i' = id_hash i /\
    (id_hash i' = from_bytes (identity_text i') -> hash_coincidence (identity_text i) (identity_text i')).
Proof. exact @add_hash_stale. Qed.
Print Assumptions C70_refuted.
(** ... after Update it is. *)
Theorem C70_update_partial : forall (C : Curve) (st : istore (C := C)), istore_laws st ->
  forall now1 now2 u a s a' s' i, iapp_retrieve st a s = Ok i -> iapp_update st now1 now2 u a s = Ok (a', s') ->
  exists i', is_retrieve st s' (or_else (up_name u) (ia_name a)) (or_else (up_password u) (ia_password a)) (or_else (up_seed u) (ia_seed a)) = Ok i' /\
    id_hash i' = from_bytes (identity_text i').
Proof. exact @update_hash. Qed.
Print Assumptions C70_update_partial.
Definition case_file : bfile := BFile (Immutable (repeat x08 64) 3) (s2b "a.txt") [].
Definition case_abs (p : bytes) : res bytes := Ok (if bseq p (s2b "docs") then repeat x2f 64 else p).
Definition case_add (path : bytes) (s : is_state (list_store (C := toy)) * nat) :=
  bucket_add list_store (fun _ => Ok [case_file]) case_abs (fun _ => false) (Ok (s2b "key")) (fun b bs => Ok (bs ++ [b])) 3 4 ann path s.
Definition hash_ok (i : @identity toy) : bool := bseq (id_hash i) (from_bytes (identity_text i)).
Example C70_case :
  match case_new with
  | Ok s => match case_add (repeat x62 64) (s, 0%nat) with
            | Ok s' => match iapp_retrieve list_store ann s, iapp_retrieve list_store ann (fst s') with
                       | Ok i, Ok i' => (hash_ok i, hash_ok i', length (id_buckets i'))
                       | _, _ => (false, true, 0) end
            | _ => (false, true, 1) end
  | _ => (false, true, 2) end = (true, false, 1)%nat.
Proof. vm_compute. reflexivity. Qed.

(** ** C71: an added bucket can be retrieved and deleted *)
(** Add leaves the store of buckets, from which Retrieve reads, as it was; ... *)
Theorem C71_refuted : forall (C : Curve) (st : istore (C := C)), istore_laws st ->
  forall (B : Type) read abs missing key bu_add now later a path (s : is_state st * B) s',
  bucket_add st read abs missing key bu_add now later a path s = Ok s' -> snd s' = snd s.
Proof.
  intros C st L B read abs missing key bu_add now later a path s s' E.
  destruct (add_stored st L _ _ _ _ _ _ _ _ _ _ _ _ E) as (ib & i & bs & _ & _ & _ & _ & _ & H). exact H.
Qed.
Print Assumptions C71_refuted.
(** ... and with a path that is not absolute, Delete does not remove what Add added. *)
Theorem C71_refuted_relative : forall (C : Curve) (st : istore (C := C)), istore_laws st ->
  forall (B : Type) read abs missing key bu_add bu_delete now later a path (s : is_state st * B) s' s'',
  (forall b bs bs', bu_add b bs = Ok bs' -> In b bs') ->
  (forall b bs bs', bu_delete b bs = Ok bs' -> forall x, In x bs' <-> In x bs /\ x <> b) ->
  abs path <> Ok path ->
  bucket_add st read abs missing key bu_add now later a path s = Ok s' ->
  bucket_delete st bu_delete a path (fst s') = Ok s'' ->
  exists i ib, iapp_retrieve st a s'' = Ok i /\ In ib (id_buckets i) /\ abs path = Ok (ib_path ib).
Proof.
  intros C st L B read abs missing key bu_add bu_delete now later a path s s' s'' A D N E1 E2.
  destruct (add_stored st L _ _ _ _ _ _ _ _ _ _ _ _ E1) as (ib & i & bs & _ & P & _ & Ea & R & _).
  destruct (bucket_deleted st L _ _ _ _ _ D E2) as (i0 & i' & R0 & R' & _ & X). assert (i0 = with_buckets i bs) by congruence. subst i0.
  exists i', ib. split; [exact R'|]. split; [|exact P]. apply X. split; [apply (A _ _ _ Ea)|]. intro K. apply N. rewrite P, K. reflexivity.
Qed.
Print Assumptions C71_refuted_relative.
(** The identity has the bucket after Add, under the absolute path; ... *)
Theorem C71_added_partial : forall (C : Curve) (st : istore (C := C)), istore_laws st ->
  forall (B : Type) read abs missing key bu_add now later a path (s : is_state st * B) s',
  bucket_add st read abs missing key bu_add now later a path s = Ok s' ->
  exists ib i bs, built_ibucket ib /\ abs path = Ok (ib_path ib) /\ iapp_retrieve st a (fst s) = Ok i /\ bu_add ib (id_buckets i) = Ok bs /\
    iapp_retrieve st a (fst s') = Ok (with_buckets i bs) /\ snd s' = snd s.
Proof. exact @add_stored. Qed.
Print Assumptions C71_added_partial.
(** ... and Delete removes exactly the buckets with the path it is given. *)
Theorem C71_deleted_partial : forall (C : Curve) (st : istore (C := C)), istore_laws st ->
  forall bu_delete a path s s',
  (forall b bs bs', bu_delete b bs = Ok bs' -> forall x, In x bs' <-> In x bs /\ x <> b) ->
  bucket_delete st bu_delete a path s = Ok s' ->
  exists i i', iapp_retrieve st a s = Ok i /\ iapp_retrieve st a s' = Ok i' /\ id_wallets i' = id_wallets i /\
    forall x, In x (id_buckets i') <-> In x (id_buckets i) /\ ib_path x <> path.
Proof. exact @bucket_deleted. Qed.
Print Assumptions C71_deleted_partial.
Definition case_remove (b : ibucket) (bs : list ibucket) : res (list ibucket) :=
  Ok (filter (fun x => negb (bseq (ib_hash x) (ib_hash b) && bseq (ib_path x) (ib_path b))) bs).
Definition paths (s : is_state (list_store (C := toy))) : list nat :=
  match iapp_retrieve list_store ann s with Ok i => map (fun b => length (ib_path b)) (id_buckets i) | _ => [99] end.
Definition add_delete (path : bytes) : list nat :=
  match case_add path (case_store, 0%nat) with
  | Ok s => match bucket_delete list_store case_remove ann path (fst s) with Ok s => paths s | _ => [98] end
  | _ => [97] end.
Example C71_case : add_delete (s2b "docs") = [64; 64] /\ add_delete (repeat x63 64) = [64].
Proof. split; vm_compute; reflexivity. Qed.

(** ** C72: the change of a fee can be spent *)
(** If the number drawn is at least the number of bills, only the public key of a private
    key that is dropped at once can open the change. *)
Theorem C72_refuted : forall (C : Curve) d (wbs : list (@wbill C)), wbs <> [] -> (Z.of_nat (length wbs) <= dr_number d)%Z ->
  change_keys d wbs = dr_shuffle d [public_key C (dr_key d)].
Proof. exact @change_lost. Qed.
Print Assumptions C72_refuted.
(** Otherwise all keys of the rings of the bills can open it as well. *)
Theorem C72_ring_partial : forall (C : Curve) d (wbs : list (@wbill C)), (0 <= dr_number d < Z.of_nat (length wbs))%Z ->
  change_keys d wbs = dr_shuffle d (concat (map wb_ring wbs) ++ [public_key C (dr_key d)]).
Proof. exact @change_kept. Qed.
Print Assumptions C72_ring_partial.
Example C72_case : rbind own_wbill (fun wb => Ok (map (fun n => length (change_keys (case_draw n 8) [wb; wb])) [0; 1; 2; 7]%Z)) = Ok [3; 3; 1; 1].
Proof. vm_compute. reflexivity. Qed.
