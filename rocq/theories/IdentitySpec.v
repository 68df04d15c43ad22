(** What identities and their parts are supposed to be. *)
From Verif Require Import Base Sha512 HashModel HashSpec EntitiesModel SignModel PiastresModel PiastresSpec JsonModel TimeModel
  JsonProofs MemJsonModel MemSpec BucketModel BucketSpec IdentityModel.

Section WithCurve.
Context {C : Curve}.

(** ** Built objects *)
Definition built_entry (e : mentry) : Prop :=
  exists now name trx description created, Forall (fun t : transaction => length (tx_hash t) = 64) trx /\
    entry_now now name trx description created = Ok e.
Definition built_statement (s : statement) : Prop :=
  exists now incoming outgoing created, Forall built_entry incoming /\ Forall built_entry outgoing /\
    statement_now now incoming outgoing created = Ok s.
Definition built_ibucket (b : ibucket) : Prop :=
  exists abs missing now bu path key created, ibucket_now abs missing now bu path key created = Ok b.
Definition built_identity (i : identity) : Prop :=
  exists now1 now2 seed name root ws bs created updated,
    Forall (fun w : wallet => length (wt_hash w) = 64) ws /\ Forall built_ibucket bs /\
    identity_now now1 now2 seed name root ws bs created updated = Ok i.

(** the encodings that are hashed *)
Definition entry_text (e : mentry) : bytes := en_name e ++ concat (map tx_hash (en_trx e)).
Definition statement_text (s : statement) : bytes :=
  concat (map en_hash (sm_incoming s)) ++ concat (map en_hash (sm_outgoing s)).
Definition identity_text (i : identity) : bytes :=
  id_seed i ++ id_name i ++ id_root i ++ concat (map wt_hash (id_wallets i)) ++ concat (map ib_hash (id_buckets i)).

(** ** Histories of a store whose objects have a hash; an error does not end a history *)
Inductive part_op (T : Type) := SavePart (t : T) | DeletePart (t : T).
Arguments SavePart {T}.
Arguments DeletePart {T}.
Definition part_run {T} (enc : T -> res json) (hash_of : T -> hash) (o : part_op T) (d : idisk) : idisk :=
  match (match o with SavePart t => part_save enc hash_of t d | DeletePart t => part_delete hash_of t d end) with
  | Ok d' => d'
  | _ => d
  end.
Fixpoint part_runs {T} (enc : T -> res json) (hash_of : T -> hash) (os : list (part_op T)) (d : idisk) : idisk :=
  match os with
  | [] => d
  | o :: os => part_runs enc hash_of os (part_run enc hash_of o d)
  end.
(** what a history leaves under [h]: the last object saved with this hash, unless deleted
    since *)
Definition part_step {T} (hash_of : T -> hash) (h : hash) (last : option T) (o : part_op T) : option T :=
  match o with
  | SavePart t => if bseq (hash_of t) h then Some t else last
  | DeletePart t => if bseq (hash_of t) h then None else last
  end.
Definition part_last {T} (hash_of : T -> hash) (h : hash) (os : list (part_op T)) : option T :=
  fold_left (part_step hash_of h) os None.
Definition part_of_op {T} (o : part_op T) : T := match o with SavePart t => t | DeletePart t => t end.
Definition part_answer {T} (o : option T) : res T := match o with Some t => Ok t | None => Err end.

(** objects whose times can be written and whose text survives JSON *)
Definition good_tentry (t : tentry) : Prop :=
  length (im_hash (te_im t)) = 64 /\ unicode (te_name t) /\ te_name t <> [] /\ Forall (fun h => length h = 64) (te_trx t) /\
  te_trx t <> [] /\ unicode (te_description t) /\ dated (im_created (te_im t)).
Definition good_tstatement (t : tstatement) : Prop :=
  length (im_hash (ts_im t)) = 64 /\ Forall (fun h => length h = 64) (ts_incoming t) /\
  Forall (fun h => length h = 64) (ts_outgoing t) /\ dated (im_created (ts_im t)).
Definition good_twbill (t : twbill) : Prop :=
  length (im_hash (tw_im t)) = 64 /\ length (tw_bill t) = 64 /\ tw_pks t <> [] /\
  Forall (fun x => scalar_of_string C (sstr C x) = Ok x /\ unicode (sstr C x)) (tw_pks t) /\ dated (im_created (tw_im t)).
Definition good_tidentity (t : tidentity) : Prop :=
  length (mu_hash (td_mu t)) = 64 /\ unicode (td_seed t) /\ td_seed t <> [] /\ unicode (td_name t) /\ td_name t <> [] /\
  unicode (td_root t) /\ td_root t <> [] /\ Forall (fun h => length h = 64) (td_wallets t) /\
  Forall (fun h => length h = 64) (td_buckets t) /\ dated (mu_created (td_mu t)).

(** ** Histories of the identity store *)
Inductive identity_op := SaveIdentity (t : tidentity) | DeleteIdentity (t : tidentity).
Definition identity_run (o : identity_op) (d : idisk) : idisk :=
  match (match o with SaveIdentity t => tidentity_save t d | DeleteIdentity t => tidentity_delete t d end) with
  | Ok d' => d'
  | _ => d
  end.
Fixpoint identity_runs (os : list identity_op) (d : idisk) : idisk :=
  match os with
  | [] => d
  | o :: os => identity_runs os (identity_run o d)
  end.
Definition of_op (o : identity_op) : tidentity := match o with SaveIdentity t => t | DeleteIdentity t => t end.
Definition same_key (h : hash) (seed : bytes) (t : tidentity) : bool := bseq (mu_hash (td_mu t)) h && bseq (td_seed t) seed.
Definition identity_step (h : hash) (seed : bytes) (last : option tidentity) (o : identity_op) : option tidentity :=
  match o with
  | SaveIdentity t => if same_key h seed t then Some t else last
  | DeleteIdentity t => if same_key h seed t then None else last
  end.
Definition identity_last (h : hash) (seed : bytes) (os : list identity_op) : option tidentity :=
  fold_left (identity_step h seed) os None.
(** the answer to a retrieval at time [now]: the identity saved, but last updated at [now];
    an error if it was created later than that *)
Definition identity_answer (now : Z) (o : option tidentity) : res tidentity :=
  match o with
  | Some t =>
      if (now <? mu_created (td_mu t))%Z then Err
      else Ok (TIdentity (Mutable (mu_hash (td_mu t)) (mu_created (td_mu t)) now) (td_seed t) (td_name t) (td_root t)
                 (td_wallets t) (td_buckets t))
  | None => Err
  end.
End WithCurve.
Arguments SavePart {T}.
Arguments DeletePart {T}.
