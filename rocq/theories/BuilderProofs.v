(** Proofs for BuilderSpec.v. *)
From Coq Require Import SpecFloat Lia ZifyBool ZifyNat ZifyN.
From Verif Require Import Base BaseFacts Sha512 HashModel HashSpec HashProofs HashTreeModel EntitiesModel SignModel FloatModel PiastresModel PiastresSpec
  PiastresProofs JsonModel MemJsonModel MemJsonProofs TransferModel BucketModel BucketSpec BucketProofs IdentityModel IdentityProofs CancelModel CancelProofs PeersModel BuilderSpec.

Lemma hash_of_multi : forall parts, hash_of parts = from_multi parts.
Proof. reflexivity. Qed.
Lemma stamp_now : forall parts now created, immutable_now now (Some (from_multi parts)) created = Ok (stamp parts now created).
Proof. reflexivity. Qed.

Lemma builds_iff : forall A (r : res A) ok x, (forall y, r = Ok y <-> ok /\ y = x) -> r <> Panic -> builds r ok x.
Proof.
  intros A r ok x H P. split; intro K.
  - apply H. auto.
  - destruct r as [y| |]; [|reflexivity|congruence]. exfalso. apply K. apply (proj1 (H y)). reflexivity.
Qed.
Lemma builds_true : forall A (x : A), builds (Ok x) True x.
Proof. intros. split; [reflexivity|tauto]. Qed.
Lemma builds_err : forall A (x : A) P, ~ P -> builds Err P x.
Proof. intros. split; [tauto|reflexivity]. Qed.
Lemma builds_ok : forall A (x : A) (P : Prop), P -> builds (Ok x) P x.
Proof. intros. split; [reflexivity|tauto]. Qed.

Lemma builds_ok' : forall A (x y : A) (P : Prop), P -> y = x -> builds (Ok y) P x.
Proof. intros. subst. split; [reflexivity|tauto]. Qed.

Ltac hashes := rewrite ?FromMultiBytes_ok; cbn [rbind immutable_now mutable_now].

Lemma builds_lock : forall now keys created,
  builds (lock_now now keys created) (keys <> [] /\ NoDup keys) (Lock (stamp keys now created) keys).
Proof.
  intros. apply builds_iff; [|apply lock_now_no_panic].
  intro y. rewrite lock_now_iff. unfold stamp. change (hash_of keys) with (from_bytes (concat keys)). tauto.
Qed.
Lemma builds_bill : forall now l amount created,
  builds (bill_now now (Some l) amount created) (0 < amount)%N (bill_of l amount (time_of now created)).
Proof.
  intros. unfold bill_now. hashes. destruct (N.ltb_spec 0 amount); [apply builds_ok|apply builds_err; lia]; assumption.
Qed.
Lemma builds_content : forall now amount from l rem created,
  let time := time_of now created in
  builds (content_now now amount from (Some l) rem created)
    ((0 < amount)%N /\ match rem with None => amount = purse from | Some _ => (amount < purse from)%N end)
    (Content (Immutable (hash_of (lk_hash l :: dec amount :: map bl_hash from ++ map lk_hash (given rem))) time) from
       (bill_of l amount time) (option_map (fun r => bill_of r (purse from - amount) time) rem)).
Proof.
  intros. apply builds_iff; [|apply content_now_no_panic].
  intro y. rewrite content_now_iff. unfold purse. rewrite <- total_value. split.
  - intros (l' & E & A & B & R & H). injection E as <-. cbn zeta in H. subst y. split; [|destruct rem; reflexivity].
    destruct rem; split; lia.
  - intros [[A B] ->]. exists l. split; [reflexivity|]. split; [exact A|]. destruct rem; cbn [option_map].
    + repeat split; lia.
    + repeat split; lia.
Qed.
Lemma builds_address : forall now sender recipients subject created,
  builds (address_now now sender recipients subject created) (~ (sender = None /\ recipients = [] /\ subject = None))
    (Address (stamp (given sender ++ recipients ++ given subject) now created) sender recipients subject).
Proof.
  intros. unfold address_now. hashes.
  destruct sender, recipients, subject; try (apply builds_ok; intros (? & ? & ?); discriminate). apply builds_err. tauto.
Qed.
Lemma f_le_zero_iff : forall x, f_le_zero x = true <-> up_to_zero x.
Proof. intros [[]|[]| |[]]; cbn; intuition congruence. Qed.
Lemma builds_genesis : forall now base increase lnk b created,
  builds (genesis_now now base increase lnk (Some b) created) ((0 < base)%N /\ ~ up_to_zero increase /\ (0 < lnk)%N)
    (Genesis (stamp [dec base; format_f12 increase; dec lnk; bl_hash b] now created) b base increase lnk).
Proof.
  intros. unfold genesis_now. hashes. pose proof (f_le_zero_iff increase) as F.
  destruct (N.ltb_spec 0 base); [|apply builds_err; lia].
  destruct (f_le_zero increase); [apply builds_err; tauto|]. cbn [negb].
  destruct (N.ltb_spec 0 lnk); [|apply builds_err; lia].
  apply builds_ok. repeat split; [assumption| |assumption]. intro U. apply F in U. discriminate.
Qed.

Section WithCurve.
Context {C : Curve}.
Notation mblock := (mined_block (C := C)).

Lemma unlock_cases : forall l (s : ringsig C), long_enough s ->
  (unlock l s = Ok tt /\ same_keys l s /\ ring_verify C s (hash_string (lk_hash l)) = Ok true) \/
  (unlock l s = Err /\ ~ (same_keys l s /\ ring_verify C s (hash_string (lk_hash l)) = Ok true)).
Proof.
  intros l s L. pose proof (unlock_no_panic l s L) as P. destruct (unlock l s) as [[]| |] eqn:E; [left|right|congruence].
  - split; [reflexivity|]. apply unlock_iff. exact E.
  - split; [reflexivity|]. intro H. apply unlock_iff in H. congruence.
Qed.
Lemma builds_unlock : forall l (s : ringsig C), long_enough s ->
  builds (unlock l s) (same_keys l s /\ ring_verify C s (hash_string (lk_hash l)) = Ok true) tt.
Proof.
  intros l s L. destruct (unlock_cases l s L) as [[-> H]|[-> H]]; [apply builds_ok|apply builds_err]; exact H.
Qed.
Lemma builds_expense : forall now c (sigs : list (ringsig C)), Forall long_enough sigs ->
  builds (expense_now now (Some c) (Some sigs))
    (Forall2 (fun b s => same_keys (bl_lock b) s /\ ring_verify C s (hash_string (lk_hash (bl_lock b))) = Ok true) (ct_from c) sigs)
    (Expense (Immutable (hash_of (ct_hash c :: map (ring_string C) sigs)) (im_created (ct_im c))) c sigs).
Proof.
  intros now c sigs L. unfold expense_now. hashes.
  destruct (Nat.eqb_spec (length sigs) (length (ct_from c))) as [E|E].
  2:{ apply builds_err. intro F. apply f2_length in F. congruence. }
  pose proof (unlock_all_iff (ct_from c) sigs E) as U. pose proof (unlock_all_no_panic (ct_from c) sigs E L) as P.
  assert (X : unlock_all (ct_from c) sigs = Ok tt <->
    Forall2 (fun b s => same_keys (bl_lock b) s /\ ring_verify C s (hash_string (lk_hash (bl_lock b))) = Ok true) (ct_from c) sigs).
  { rewrite U. clear. generalize (ct_from c) as l, sigs. clear.
    induction l as [|b l IH]; intros [|s sigs]; split; intro H; inversion H; subst; constructor; try (apply unlock_iff; assumption); apply IH; assumption. }
  destruct (unlock_all (ct_from c) sigs) as [[]| |]; [|apply builds_err; intro F; apply X in F; discriminate|congruence].
  cbn [rbind]. apply builds_ok. apply X. reflexivity.
Qed.
Lemma builds_transaction : forall now addr bucket (fees : list (expense (C := C))) created,
  builds (transaction_now now addr bucket fees created) (~ (addr = None /\ bucket = None /\ fees = []))
    (Transaction (stamp (map ad_hash (given addr) ++ given bucket ++ map ex_hash fees) now created) addr bucket fees).
Proof.
  intros. unfold transaction_now. hashes.
  destruct addr, bucket, fees; try (apply builds_ok; intros (? & ? & ?); discriminate). apply builds_err. tauto.
Qed.
Lemma builds_block : forall now g additional (trx : list (transaction (C := C))) created,
  builds (block_now now (Some g) additional trx created) (trx <> [])
    (Block (stamp (gn_hash g :: dec additional :: map tx_hash trx) now created) g additional trx).
Proof.
  intros. unfold block_now. hashes. destruct trx; [apply builds_err; congruence|apply builds_ok; discriminate].
Qed.
Lemma builds_mined_block : forall now (b : block (C := C)) mining created,
  mined_block_now now (Some b) mining created = Ok (MinedBlock (stamp [bk_hash b; mining] now created) b mining).
Proof. intros. unfold mined_block_now. hashes. reflexivity. Qed.
Lemma builds_link : forall now prev (next : block (C := C)) index created,
  link_now now (Some prev) (Some next) index created = Ok (ChainLink (stamp [prev; bk_hash next; dec index] now created) prev next index).
Proof. intros. unfold link_now. hashes. reflexivity. Qed.
Lemma builds_mined_link : forall now (l : chain_link (C := C)) mining created,
  mined_link_now now (Some l) mining created = Ok (MinedLink (stamp [ln_hash l; mining] now created) l mining).
Proof. intros. unfold mined_link_now. hashes. reflexivity. Qed.
Lemma builds_chain : forall now g (root : mblock) head total created,
  builds (chain_now now (Some g) (Some root) (Some head) total created) (at_least root head <= total)%N
    (Chain (stamp [gn_hash g; mb_hash root; ml_hash head; dec total] now created) g root head total).
Proof.
  intros. unfold chain_now. hashes. change (known_trx root head) with (at_least root head).
  destruct (N.ltb_spec total (at_least root head)); [apply builds_err; lia|apply builds_ok; assumption].
Qed.
Lemma builds_state : forall now ch prev height (trx : list (transaction (C := C))) created,
  builds (state_now now (Some ch) (Some prev) height trx created) ((0 < height)%N /\ trx <> [])
    (State (stamp (ch :: prev :: dec height :: map tx_hash trx) now created) ch prev height trx).
Proof.
  intros. unfold state_now. hashes. destruct (N.ltb_spec 0 height); [|apply builds_err; lia].
  destruct trx; [apply builds_err; tauto|apply builds_ok; split; [assumption|discriminate]].
Qed.

Lemma missing_parts : forall now created,
  (forall amount, bill_now now None amount created = Err) /\
  (forall amount from rem, content_now now amount from None rem created = Err) /\
  (forall ct (sigs : option (list (ringsig C))), ct = None \/ sigs = None -> expense_now now ct sigs = Err) /\
  (forall base increase lnk, genesis_now now base increase lnk None created = Err) /\
  (forall additional (trx : list (transaction (C := C))), block_now now None additional trx created = Err) /\
  (forall mining, mined_block_now (C := C) now None mining created = Err) /\
  (forall prev (next : option (block (C := C))) index, prev = None \/ next = None -> link_now now prev next index created = Err) /\
  (forall mining, mined_link_now (C := C) now None mining created = Err) /\
  (forall g (root : option mblock) head total, g = None \/ root = None \/ head = None -> chain_now now g root head total created = Err) /\
  (forall ch prev height (trx : list (transaction (C := C))), ch = None \/ prev = None -> state_now now ch prev height trx created = Err).
Proof.
  intros now created.
  split; [reflexivity|]. split; [reflexivity|].
  split; [intros [?|] [?|] [H|H]; try discriminate; reflexivity|].
  split; [intros; unfold genesis_now; destruct (0 <? base)%N, (negb (f_le_zero increase)), (0 <? lnk)%N; reflexivity|].
  split; [reflexivity|]. split; [reflexivity|].
  split; [intros [?|] [?|] index [H|H]; try discriminate; reflexivity|].
  split; [reflexivity|].
  split; [intros [?|] [?|] [?|] total [H|[H|H]]; try discriminate; reflexivity|].
  intros [?|] [?|] height trx [H|H]; try discriminate; reflexivity.
Qed.
End WithCurve.

(** ** Files *)
Lemma builds_chunk : forall now size data created,
  builds (chunk_now now size (Some data) created) (0 < size)%N (Chunk (stamp [dec size; data] now created) size data).
Proof.
  intros. unfold chunk_now. hashes. destruct (N.eqb_spec size 0); [apply builds_err; lia|apply builds_ok; lia].
Qed.
Lemma builds_file : forall now path chunks created,
  builds (bfile_now now path chunks created) (path <> [] /\ chunks <> []) (BFile (stamp (path :: map ck_hash chunks) now created) path chunks).
Proof.
  intros. unfold bfile_now. hashes. destruct path; [apply builds_err; tauto|]. destruct chunks; [apply builds_err; tauto|].
  apply builds_ok. split; discriminate.
Qed.
Lemma builds_bucket : forall now files created,
  builds (bucket_now now files created) (files <> []) (Bucket (stamp (map bf_hash files) now created) files).
Proof.
  intros. unfold bucket_now. hashes. destruct files; [apply builds_err; tauto|apply builds_ok; discriminate].
Qed.
Lemma no_data : forall now size created, chunk_now now size None created = Err.
Proof. intros. unfold chunk_now. destruct (size =? 0)%N; reflexivity. Qed.

(** ** Identities *)
Lemma nonempty : forall (s : bytes) A (x y : A), (if negb (bseq s []) then x else y) = match s with [] => y | _ => x end.
Proof. intros [|c s] A x y; reflexivity. Qed.
Section Identities.
Context {C : Curve}.
Lemma builds_entry : forall now name (trx : list (transaction (C := C))) description created,
  builds (entry_now now name trx description created) (name <> [] /\ trx <> [])
    (MEntry (stamp (name :: map tx_hash trx) now created) name trx description).
Proof.
  intros. unfold entry_now. hashes. destruct name; [apply builds_err; tauto|]. cbn [bseq negb].
  destruct trx; [apply builds_err; tauto|]. apply builds_ok. split; discriminate.
Qed.
Lemma builds_statement : forall now (incoming outgoing : list (mentry (C := C))) created,
  statement_now now incoming outgoing created =
  Ok (Statement (stamp (map en_hash incoming ++ map en_hash outgoing) now created) incoming outgoing).
Proof. intros. unfold statement_now. hashes. reflexivity. Qed.
Lemma builds_ibucket : forall abs missing now b path key created, (forall p, abs p <> Panic) ->
  (forall full, abs path = Ok full ->
    builds (ibucket_now abs missing now (Some b) path (Some key) created) (path <> [] /\ missing full = false)
      (IBucket (stamp [full] now created) b full key)) /\
  (abs path = Err -> ibucket_now abs missing now (Some b) path (Some key) created = Err) /\
  (forall b key, b = None \/ key = None -> ibucket_now abs missing now b path key created = Err).
Proof.
  intros abs missing now b path key created P. split; [|split].
  - intros full F. unfold ibucket_now. destruct path; [apply builds_err; tauto|]. cbn [bseq negb]. rewrite F. cbn [rbind].
    rewrite FromBytes_ok. cbn [rbind immutable_now]. destruct (missing full); [apply builds_err; intros [_ H]; discriminate|].
    cbn [negb]. apply builds_ok'; [split; [discriminate|reflexivity]|].
    unfold stamp, hash_of. cbn [concat]. rewrite app_nil_r. reflexivity.
  - intro E. unfold ibucket_now. rewrite E. destruct (negb (bseq path [])); reflexivity.
  - intros [b'|] [key'|] [H|H]; try discriminate; unfold ibucket_now; try reflexivity. destruct (negb (bseq path [])); reflexivity.
Qed.
Lemma builds_identity : forall now1 now2 seed name root ws (bs : list ibucket) created updated,
  let c := time_of now1 created in let u := time_of now2 updated in
  builds (identity_now (C := C) now1 now2 seed name root ws bs created updated)
    (seed <> [] /\ name <> [] /\ root <> [] /\ (c <= u)%Z)
    (Identity (Mutable (hash_of (seed :: name :: root :: map wt_hash ws ++ map ib_hash bs)) c u) seed name root ws bs).
Proof.
  intros. unfold identity_now. hashes.
  destruct seed; [apply builds_err; tauto|]. destruct name; [apply builds_err; tauto|]. destruct root; [apply builds_err; tauto|].
  cbn [bseq negb]. subst c u. fold (time_of now1 created) (time_of now2 updated).
  destruct (time_of now1 created >? time_of now2 updated)%Z eqn:G.
  - apply builds_err. lia.
  - apply builds_ok. repeat split; try discriminate. lia.
Qed.
End Identities.

(** ** Stored forms, peers, keys *)
Lemma builds_stored : forall h created,
  let im := Immutable h created in
  (forall keys, tlock_now h keys created = Ok (TLock im keys)) /\
  (forall l amount, builds (tbill_now h l amount created) (0 < amount)%N (TBill im l amount)) /\
  (forall b base increase lnk, builds (tgenesis_now h b base increase lnk created)
     ((0 < base)%N /\ ~ up_to_zero increase /\ (0 < lnk)%N) (TGenesis im b base increase lnk)) /\
  (forall addr bucket fees, builds (ttrx_now h addr bucket fees created) (~ (addr = None /\ bucket = None /\ fees = []))
     (TTrx im addr bucket fees)) /\
  (forall trx amount additional, builds (tblock_now h trx amount additional created) (0 < amount)%N (TBlock im trx amount additional)) /\
  (forall b mining, tmblock_now h b mining created = Ok (TMBlock im b mining)) /\
  (forall prev next index, tlink_now h prev next index created = Ok (TLink im prev next index)) /\
  (forall l mining, tmlink_now h l mining created = Ok (TMLink im l mining)) /\
  (forall g root head total, builds (tchain_now h g root head total created) (0 < total)%N (TChain im g root head total)) /\
  (forall ch prev height trx amount, builds (tstate_now h (Some ch) prev height trx amount created) ((0 < height)%N /\ (0 < amount)%N)
     (TState im ch prev height trx amount)).
Proof.
  intros h created im.
  split; [reflexivity|].
  split; [intros; unfold tbill_now; destruct (N.eqb_spec amount 0); [apply builds_err; lia|apply builds_ok; lia]|].
  split.
  { intros. unfold tgenesis_now. pose proof (f_le_zero_iff increase) as F.
    destruct (N.eqb_spec base 0); [apply builds_err; lia|]. destruct (f_le_zero increase); [apply builds_err; tauto|].
    destruct (N.eqb_spec lnk 0); [apply builds_err; lia|]. apply builds_ok. split; [lia|]. split; [|lia]. intro U. apply F in U. discriminate. }
  split.
  { intros [a|] [b|] [|f fees]; try (apply builds_ok; intros (? & ? & ?); discriminate). apply builds_err. tauto. }
  split; [intros; unfold tblock_now; destruct (N.eqb_spec amount 0); [apply builds_err; lia|apply builds_ok; lia]|].
  split; [reflexivity|]. split; [reflexivity|]. split; [reflexivity|].
  split; [intros; unfold tchain_now; destruct (N.eqb_spec total 0); [apply builds_err; lia|apply builds_ok; lia]|].
  intros. unfold tstate_now. destruct (N.eqb_spec height 0); [apply builds_err; lia|]. destruct (N.eqb_spec amount 0); [apply builds_err; lia|].
  apply builds_ok; split; lia.
Qed.
Lemma builds_stored_signed : forall (C : Curve) h created,
  (forall from to (sigs : list (ringsig C)) rem, builds (texpense_now h from to sigs rem created) (from <> [] /\ sigs <> [])
     (TExpense (Immutable h created) from to sigs rem)) /\
  (forall now e l (sigs : list (ringsig C)), builds (tcancel_now now (Some h) (Some e) (Some l) (Some sigs) (Some created)) (sigs <> [])
     (TCancel (Immutable h created) e l sigs)) /\
  (forall now h e l (sigs : option (list (ringsig C))) created, h = None \/ e = None \/ l = None \/ sigs = None ->
     tcancel_now now h e l sigs created = Err) /\
  (forall b (pks : list (Sc C)), builds (twbill_now h b pks created) (pks <> []) (TWBill (Immutable h created) b pks)).
Proof.
  intros C h created. split; [|split; [|split]].
  - intros [|f from] to [|s sigs] rem; try (apply builds_err; tauto). apply builds_ok. split; discriminate.
  - intros now e l [|s sigs]; [apply builds_err; tauto|apply builds_ok; discriminate].
  - intros now [?|] [?|] [?|] [?|] c [H|[H|[H|H]]]; try discriminate; reflexivity.
  - intros b [|k pks]; [apply builds_err; tauto|apply builds_ok; discriminate].
Qed.
Lemma builds_stored_identity : forall h created,
  (forall name trx description, builds (tentry_now h name trx description created) (name <> [] /\ trx <> [])
     (TEntry (Immutable h created) name trx description)) /\
  (forall incoming outgoing, tstatement_now h incoming outgoing created = Ok (TStatement (Immutable h created) incoming outgoing)) /\
  (forall now1 now2 seed name root ws bs updated, let u := time_of now2 updated in
     builds (tidentity_now now1 now2 h seed name root ws bs (Some created) updated)
       (seed <> [] /\ name <> [] /\ root <> [] /\ (created <= u)%Z)
       (TIdentity (Mutable h created u) seed name root ws bs)).
Proof.
  intros h created. split; [|split; [reflexivity|]].
  - intros [|c name] [|t trx] d; try (apply builds_err; tauto). apply builds_ok. split; discriminate.
  - intros. unfold tidentity_now. cbn [rbind mutable_now]. fold (time_of now2 updated). fold u.
    destruct seed; [apply builds_err; tauto|]. destruct name; [apply builds_err; tauto|]. destruct root; [apply builds_err; tauto|].
    cbn [bseq negb]. destruct (created >? u)%Z eqn:G; [apply builds_err; lia|]. apply builds_ok. repeat split; try discriminate. lia.
Qed.
Lemma builds_peer : forall host port clear onion,
  builds (peer_now host port clear onion) (host <> [] /\ (0 < port)%N /\ (clear = true \/ onion = true))
    (Peer host port clear (negb clear)).
Proof.
  intros. unfold peer_now. destruct host; [apply builds_err; tauto|]. cbn [bseq negb].
  destruct (N.eqb_spec port 0); [apply builds_err; lia|]. cbn [negb].
  destruct clear; [apply builds_ok; repeat split; [discriminate|lia|auto]|].
  destruct onion; [apply builds_ok; repeat split; [discriminate|lia|auto]|].
  apply builds_err. intros (_ & _ & [H|H]); discriminate.
Qed.
Lemma builds_key : forall (R : rsa),
  (forall k, private_now R (Some k) = Ok (PrivateKey R k (rsa_public R k))) /\ private_now R None = Err.
Proof. split; reflexivity. Qed.
