(** Model of application/current.go, application/identities, application/genesis and
    application/identities/piastres.

    The stores of identities (domain/memory/identities/sdk.go:38-48), the collections of
    wallets and buckets and the wallet bills are only interfaces in the repository; they are
    parameters here.  An operation that fails changes nothing unless it is said what it
    wrote before. *)
From Verif Require Import Base HashModel EntitiesModel SignModel FloatModel PiastresModel BucketModel IdentityModel.

Section WithCurve.
Context {C : Curve}.

(** ** The store of identities: domain/memory/identities/sdk.go:39-48 *)
Record istore := IStore {
  is_state : Type;
  is_retrieve : is_state -> bytes -> bytes -> bytes -> res identity;       (* name, password, seed *)
  is_insert : identity -> bytes -> is_state -> res is_state;               (* identity, password *)
  is_update : hash -> identity -> bytes -> bytes -> is_state -> res is_state; (* original hash, identity, password, new password *)
  is_delete : identity -> bytes -> is_state -> res is_state }.

Section WithStore.
Variable st : istore.
Notation state := (is_state st).

(** ** application/current.go *)
(** lines 32-39 NewIdentity *)
Definition new_identity (now1 now2 : Z) (name password seed root : bytes) (s : state) : res state :=
  let! i := identity_now now1 now2 seed name root [] [] None None in
  is_insert st i password s.
(** application/identities/current.go:5-12: what the application of an identity holds *)
Record iapp := IApp { ia_name : bytes; ia_password : bytes; ia_seed : bytes }.
(** lines 42-55 Authenticate: line 43 passes the seed and the password to
    Retrieve(name, password, seed).  Simplification: the application builder (only an
    interface) returns an application with what it was given. *)
Definition authenticate (name seed password : bytes) (s : state) : res iapp :=
  let! i := is_retrieve st s name seed password in
  Ok (IApp (id_name i) password (id_seed i)).

(** ** application/identities/current.go *)
(** application/identities/sdk.go:52-61: [None] for Has... false *)
Record update := Update { up_seed : option bytes; up_name : option bytes; up_password : option bytes; up_root : option bytes }.
Definition or_else (o : option bytes) (d : bytes) : bytes := match o with Some x => x | None => d end.
(** lines 35-85 Update: line 47 starts a new builder with the seed, the name and the root;
    line 83 changes the password the application holds, and nothing else of it *)
Definition iapp_update (now1 now2 : Z) (u : update) (a : iapp) (s : state) : res (iapp * state) :=
  let! i := is_retrieve st s (ia_name a) (ia_password a) (ia_seed a) in
  let password := or_else (up_password u) (ia_password a) in
  let! i' := identity_now now1 now2 (or_else (up_seed u) (id_seed i)) (or_else (up_name u) (id_name i))
               (or_else (up_root u) (id_root i)) [] [] None None in
  let! s := is_update st (id_hash i) i' (ia_password a) password s in
  Ok (IApp (ia_name a) password (ia_seed a), s).
(** lines 88-90 Retrieve *)
Definition iapp_retrieve (a : iapp) (s : state) : res identity :=
  is_retrieve st s (ia_name a) (ia_password a) (ia_seed a).
(** lines 93-101 Delete *)
Definition iapp_delete (a : iapp) (s : state) : res state :=
  let! i := is_retrieve st s (ia_name a) (ia_password a) (ia_seed a) in
  is_delete st i (ia_password a) s.

(** ** application/genesis/current.go:62-156 Init *)
(** [g_retrieve] and [g_save] are the store of the genesis, [mk_wbill] and [mk_wallet] the
    builders of lines 115-122, [key] the new private key; [now] is the reading of line 82
    and [later] that of line 130.  The result is the outcome and the states of the two
    stores from the first to the last: the process can stop at each of them. *)
Definition genesis_init {G : Type} (g_retrieve : G -> res genesis) (g_save : genesis -> G -> res G)
    (mk_wbill : bill -> Sc C -> Z -> res wbill) (mk_wallet : bytes -> list wbill -> Z -> res wallet)
    (key : Sc C) (now later : Z) (name password seed wname : bytes) (amount base : N) (increase : float64) (link : N)
    (s : state * G) : res unit * list (state * G) :=
  match g_retrieve (snd s) with
  | Ok _ => (Err, [s])
  | Panic => (Panic, [s])
  | Err =>
      match (let! i := is_retrieve st (fst s) name seed password in
             let! lk := app_lock now [public_key C key] (Some now) in
             let! b := bill_now now (Some lk) amount (Some now) in
             let! g := genesis_now now base increase link (Some b) (Some now) in
             let! wb := mk_wbill b key now in
             let! w := mk_wallet wname [wb] now in
             let! i' := identity_now now now seed name (id_root i) (id_wallets i ++ [w]) (id_buckets i)
                          (Some (mu_created (id_mu i))) (Some later) in
             let! s1 := is_update st (id_hash i) i' password password (fst s) in
             Ok (g, s1)) with
      | Ok (g, s1) =>
          match g_save g (snd s) with
          | Ok g1 => (Ok tt, [s; (s1, snd s); (s1, g1)])
          | Err => (Err, [s; (s1, snd s)])
          | Panic => (Panic, [s; (s1, snd s)])
          end
      | Err => (Err, [s])
      | Panic => (Panic, [s])
      end
  end.
(** the wallet builder of the repository (lines 120-122 give it no statement) *)
Definition repo_wallet (name : bytes) (bills : list wbill) (created : Z) : res wallet :=
  wallet_now created name None bills [] (Some created).

(** ** application/identities/piastres/current.go:64-178 Bucket *)
(** application/identities/piastres/sdk.go Fee *)
Record fee := Fee { fe_amount : N; fe_lock : lock }.
(** what is drawn for one fee: the number of line 94, the new private key of line 110, the
    permutation of lines 114-117 and the clock of lines 129 and 135 *)
Record draw := Draw { dr_number : Z; dr_key : Sc C; dr_shuffle : list (Pt C) -> list (Pt C); dr_lock_time : Z; dr_time : Z }.
(** lines 98-104 from [index] on: the loop is left as soon as [max_index] is at least the
    index plus one *)
Fixpoint ring_keys (max_index index : Z) (keys : list (Pt C)) : list (Pt C) :=
  match keys with
  | [] => []
  | k :: keys => if (index + 1 <=? max_index)%Z then [] else k :: ring_keys max_index (index + 1) keys
  end.
(** lines 90-117 without the bills: the keys of the lock for the change *)
Definition change_keys (d : draw) (wbs : list wbill) : list (Pt C) :=
  let max_index := Z.quot (dr_number d) (Z.of_nat (length wbs)) in
  dr_shuffle d (concat (map (fun wb => ring_keys max_index 0 (wb_ring wb)) wbs) ++ [public_key C (dr_key d)]).
(** lines 141-152 *)
Definition sign_bills (msg : bytes) (wbs : list wbill) : res (list (ringsig C)) :=
  rmapM (fun wb => ring_sign C (wb_pk wb) msg (wb_ring wb)) wbs.
(** lines 82-159; [additional] is amountAdditionalPubKeysPerShareHolderPerRing, of which
    Intn panics if it is not positive *)
Definition fee_expense (wfetch : N -> res (list wbill)) (additional : Z) (d : draw) (f : fee) : res expense :=
  let! wbs := wfetch (fe_amount f) in
  if (additional <=? 0)%Z then Panic else
  match wbs with
  | [] => Panic (* line 95 divides by zero *)
  | _ =>
      let! remaining := app_lock (dr_lock_time d) (change_keys d wbs) (Some (dr_lock_time d)) in
      let! ct := content_now (dr_time d) (fe_amount f) (map wb_bill wbs) (Some (fe_lock f)) (Some remaining) (Some (dr_time d)) in
      let! sigs := sign_bills (hash_string (ct_hash ct)) wbs in
      expense_now (dr_time d) (Some ct) (Some sigs)
  end.
(** [draws] has a draw for each fee *)
Fixpoint fee_expenses (wfetch : N -> res (list wbill)) (additional : Z) (draws : list draw) (fees : list fee) : res (list expense) :=
  match fees, draws with
  | f :: fees, d :: draws =>
      let! e := fee_expense wfetch additional d f in
      let! es := fee_expenses wfetch additional draws fees in
      Ok (e :: es)
  | _, _ => Ok []
  end.
(** [bfetch] is Buckets().Fetch, [wfetch] Wallets().Fetch, [transact] Wallets().Transact, a
    change of the identity *)
Definition bucket_transaction (bfetch : identity -> bytes -> res ibucket) (wfetch : identity -> N -> res (list wbill))
    (transact : transaction -> identity -> res identity) (additional : Z)
    (now : Z) (draws : list draw) (a : iapp) (path : bytes) (fees : list fee) (s : state) : res (transaction * state) :=
  let! i := is_retrieve st s (ia_name a) (ia_password a) (ia_seed a) in
  let! b := bfetch i path in
  let! es := fee_expenses (wfetch i) additional draws fees in
  let! t := transaction_now now None (Some (ib_hash b)) es (Some now) in
  let! i' := transact t i in
  let! s := is_update st (id_hash i) i' (ia_password a) (ia_password a) s in
  Ok (t, s).

(** ** application/identities/buckets/application.go *)
(** lines 75-116 Add and 119-139 Delete.  [bu_add] and [bu_delete] are Buckets().Add and
    Delete on the list of buckets; they change the identity in place, its hash stays.
    [read] is dirToFiles (BucketModel.v), [key] the new private key, [B] the store of
    buckets, which Add is given (line 25) *)
Definition with_buckets (i : identity) (bs : list ibucket) : identity :=
  Identity (id_mu i) (id_seed i) (id_name i) (id_root i) (id_wallets i) bs.
Definition bucket_add {B : Type} (read : bytes -> res (list bfile)) (abs : bytes -> res bytes) (missing : bytes -> bool)
    (key : res bytes) (bu_add : ibucket -> list ibucket -> res (list ibucket)) (now later : Z)
    (a : iapp) (path : bytes) (s : state * B) : res (state * B) :=
  let! files := read path in
  let! b := bucket_now now files (Some now) in
  let! key := key in
  let! ib := ibucket_now abs missing later (Some b) path (Some key) (Some later) in
  let! i := is_retrieve st (fst s) (ia_name a) (ia_password a) (ia_seed a) in
  let! bs := bu_add ib (id_buckets i) in
  let! s1 := is_update st (id_hash i) (with_buckets i bs) (ia_password a) (ia_password a) (fst s) in
  Ok (s1, snd s).
Fixpoint delete_at (bu_delete : ibucket -> list ibucket -> res (list ibucket)) (path : bytes) (all bs : list ibucket) : res (list ibucket) :=
  match all with
  | [] => Ok bs
  | b :: all =>
      if bseq (ib_path b) path then let! bs := bu_delete b bs in delete_at bu_delete path all bs
      else delete_at bu_delete path all bs
  end.
Definition bucket_delete (bu_delete : ibucket -> list ibucket -> res (list ibucket)) (a : iapp) (path : bytes) (s : state) : res state :=
  let! i := is_retrieve st s (ia_name a) (ia_password a) (ia_seed a) in
  let! bs := delete_at bu_delete path (id_buckets i) (id_buckets i) in
  is_update st (id_hash i) (with_buckets i bs) (ia_password a) (ia_password a) s.
End WithStore.
End WithCurve.
