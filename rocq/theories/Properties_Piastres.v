(** Properties C17-C27: locks, bills, expenses, transactions, genesis, blocks,
    links, chains and states as built in memory. *)
From Coq Require Import SpecFloat.
From Verif Require Import Base Sha512 BaseFacts HashModel HashSpec HashProofs EntitiesModel SignModel SignSpec ToyCurve
  FloatModel PiastresModel PiastresSpec PiastresProofs.

(** Fixtures for the examples. *)
Definition rhash (n : N) : hash := sha512 (ntoa n).
Definition rget {A B} (x : res A) (f : A -> res B) : res B := match x with Ok a => f a | Err => Err | Panic => Panic end.

(** ** C17 *)
Theorem C17_lock_built : forall now keys created l, lock_now now keys created = Ok l <->
  keys <> [] /\ NoDup keys /\ l = Lock (Immutable (from_bytes (concat keys)) (time_of now created)) keys.
Proof. exact lock_now_iff. Qed.
Print Assumptions C17_lock_built.
Theorem C17_unlock : forall (C : Curve) l (sig : ringsig C), unlock l sig = Ok tt <->
  same_keys l sig /\ ring_verify C sig (hash_string (lk_hash l)) = Ok true.
Proof. exact @unlock_iff. Qed.
Print Assumptions C17_unlock.
Example C17_case :
  let ring := [mk 5; mk 7; mk 9] in
  rget (lock_now 0 (map (pstr toy) ring) None) (fun l =>
    rget (ring_sign toy (mk 7) (hash_string (lk_hash l)) (rev ring)) (fun s => @unlock toy l s)) = Ok tt /\
  rget (lock_now 0 (map (pstr toy) ring) None) (fun l =>
    rget (ring_sign toy (mk 7) (hash_string (lk_hash l)) [mk 7; mk 9]) (fun s => @unlock toy l s)) = Err /\
  lock_now 0 [rhash 1; rhash 2; rhash 1] None = Err.
Proof. repeat split; vm_compute; reflexivity. Qed.

(** ** C18 *)
(** Whoever opens a lock made by the applications has found a public key whose
    SHA-512 digest is the hexadecimal text of a public key. *)
Theorem C18_refuted : forall (C : Curve) red zero sadd, CurveLaws C red zero sadd ->
  forall now pks created l, app_lock now pks created = Ok l ->
  forall sig : ringsig C, unlock l sig = Ok tt ->
  rs_ring sig <> [] /\
  forall q, In q (rs_ring sig) -> exists p, In p pks /\ sha512 (penc C p) = hex_encode (penc C q).
Proof. exact @app_lock_unspendable. Qed.
Print Assumptions C18_refuted.
(** With the toy curve no signature at all opens the lock of key 9. *)
Definition is_ok {A} (x : res A) : bool := match x with Ok _ => true | _ => false end.
Example C18_case : is_ok (@app_lock toy 0 [public_key toy (mk 9)] None) = true /\
  forall l, @app_lock toy 0 [public_key toy (mk 9)] None = Ok l -> forall sig, @unlock toy l sig <> Ok tt.
Proof.
  split; [vm_compute; reflexivity|]. intros l H sig U.
  destruct (C18_refuted _ _ _ _ toy_laws _ _ _ _ H sig U) as [NE A].
  destruct (rs_ring sig) as [|q r]; [congruence|]. destruct (A q (or_introl eq_refl)) as (p & [<-|[]] & E).
  pose proof (hex_encode_lowhex (penc toy q)) as F. rewrite <- E in F. clear - F.
  assert (X : forallb (fun b => orb (andb (48 <=? b2n b)%N (b2n b <=? 57)%N) (andb (97 <=? b2n b)%N (b2n b <=? 102)%N))
    (sha512 (penc toy (public_key toy (mk 9)))) = true).
  { apply forallb_forall. intros b Hb. rewrite Forall_forall in F. specialize (F b Hb). unfold is_lowhex in F.
    destruct F as [[F1 F2]|[F1 F2]]; apply N.leb_le in F1, F2; rewrite F1, F2; cbn; auto using Bool.orb_true_r. }
  vm_compute in X. discriminate.
Qed.
(** What holds: a lock over the texts of the keys is opened by the ring signature
    of any of its owners on the hash of the lock. *)
Theorem C18_text_keys_partial : forall (C : Curve) red zero sadd, CurveLaws C red zero sadd ->
  forall now ring x created l, red x -> In (public_key C x) ring ->
  lock_now now (map (pstr C) ring) created = Ok l ->
  exists sig, ring_sign C x (hash_string (lk_hash l)) ring = Ok sig /\ unlock l sig = Ok tt.
Proof. exact @text_lock_opens. Qed.
Print Assumptions C18_text_keys_partial.

(** ** C19 *)
Theorem C19_refuted : forall l, built_lock l -> 2 <= length (lk_keys l) ->
  forall now created, exists l', lock_now now [lk_hash l] created = Ok l' /\
    lk_hash l' = lk_hash l /\ ~ (forall k, In k (lk_keys l') <-> In k (lk_keys l)).
Proof. exact lock_hash_ambiguous. Qed.
Print Assumptions C19_refuted.
(** missing: pairs of a lock with one key and a lock with several *)
Theorem C19_commits_partial : forall l1 l2, built_lock l1 -> built_lock l2 ->
  (length (lk_keys l1) = 1 <-> length (lk_keys l2) = 1) -> lk_hash l1 = lk_hash l2 ->
  lk_keys l1 = lk_keys l2 \/ sha_collision (concat (lk_keys l1)) (concat (lk_keys l2)).
Proof. exact lock_hash_commits. Qed.
Print Assumptions C19_commits_partial.
Lemma rhash_64 : forall n, hash64 (rhash n).
Proof. intro n. apply sha512_length. Qed.
Lemma lock_ok : forall now keys created, Forall hash64 keys -> is_ok (lock_now now keys created) = true ->
  exists l, lock_now now keys created = Ok l /\ built_lock l.
Proof.
  intros now keys created F H. destruct (lock_now now keys created) as [l| |] eqn:E; try discriminate.
  exists l. split; [reflexivity|]. exists now, keys, created. auto.
Qed.
Example C19_case : exists l, lock_now 0 [rhash 1; rhash 2; rhash 3] None = Ok l /\ built_lock l /\
  2 <= length (lk_keys l).
Proof.
  destruct (lock_ok 0 [rhash 1; rhash 2; rhash 3] None) as (l & E & B).
  - repeat constructor; apply rhash_64.
  - vm_compute. reflexivity.
  - exists l. split; [exact E|]. split; [exact B|]. apply C17_lock_built in E as (_ & _ & ->). cbn. repeat constructor.
Qed.

(** ** C20 *)
Theorem C20_refuted : forall (C : Curve) now now1 amount from lk rem created c (sigs : list (ringsig C)) e,
  content_now now1 amount from (Some lk) rem created = Ok c ->
  expense_now now (Some c) (Some sigs) = Ok e ->
  forall thief amount', (0 < amount' <= total_u64 from)%N ->
  exists c' e',
    content_now now1 amount' from (Some thief) (if (amount' =? total_u64 from)%N then None else Some thief) created = Ok c' /\
    expense_now now (Some c') (Some sigs) = Ok e' /\
    ex_content e' = c' /\ bl_lock (ct_to c') = thief /\ bl_amount (ct_to c') = amount' /\
    (forall r, ct_remaining c' = Some r -> bl_lock r = thief).
Proof. exact @replay_any_recipient. Qed.
Print Assumptions C20_refuted.
Theorem C20_refuted_any_content : forall (C : Curve) now c (sigs : list (ringsig C)) e,
  expense_now now (Some c) (Some sigs) = Ok e ->
  forall now' c', ct_from c' = ct_from c ->
  exists e', expense_now now' (Some c') (Some sigs) = Ok e' /\ ex_content e' = c'.
Proof. exact @signatures_replay. Qed.
Print Assumptions C20_refuted_any_content.
(** What holds: a signature is bound to the hash of the lock it opens. *)
Theorem C20_bound_to_lock_partial : forall (C : Curve) red zero sadd, CurveLaws C red zero sadd ->
  forall l1 l2 (sig : ringsig C), lk_keys l1 <> [] ->
  unlock l1 sig = Ok tt -> unlock l2 sig = Ok tt ->
  lk_hash l1 = lk_hash l2 \/
  challenge_collision C (last_input C (hash_string (lk_hash l1)) (rs_ring sig) (rs_s sig) (rs_e sig))
                        (last_input C (hash_string (lk_hash l2)) (rs_ring sig) (rs_s sig) (rs_e sig)).
Proof. exact @unlock_two_locks. Qed.
Print Assumptions C20_bound_to_lock_partial.

(** an accepted expense of two bills, and the same signatures accepted for a thief *)
Definition toy_lock (owner : Z) : res lock := lock_now 0 (map (pstr toy) [mk 3; mk owner]) None.
Definition toy_bill (owner : Z) (amount : N) : res bill := rget (toy_lock owner) (fun l => bill_now 0 (Some l) amount None).
Definition toy_sig (b : bill) (owner : Z) : res (ringsig toy) :=
  ring_sign toy (mk owner) (hash_string (lk_hash (bl_lock b))) [mk 3; mk owner].
Definition toy_expense (to rem : Z) (amount : N) : res bool :=
  rget (toy_bill 5 100) (fun b1 => rget (toy_bill 9 50) (fun b2 =>
  rget (toy_sig b1 5) (fun s1 => rget (toy_sig b2 9) (fun s2 =>
  rget (toy_lock to) (fun lk => rget (toy_lock rem) (fun rl =>
  rget (content_now 0 amount [b1; b2] (Some lk) (Some rl) None) (fun c =>
  rget (@expense_now toy 0 (Some c) (Some [s1; s2])) (fun e =>
  Ok (paid (ex_content e) =? 150)%N)))))))).
Example C20_case : toy_expense 11 5 120 = Ok true /\ toy_expense 13 13 149 = Ok true.
Proof. split; vm_compute; reflexivity. Qed.

(** ** C21 *)
Theorem C21_conservation : forall now amount from lk rem created c,
  content_now now amount from lk rem created = Ok c ->
  ct_from c = from /\ bl_amount (ct_to c) = amount /\ (0 < amount)%N /\
  Some (bl_lock (ct_to c)) = lk /\
  paid c = (value from mod 2 ^ 64)%N /\
  option_map bl_lock (ct_remaining c) = rem /\
  (forall r, ct_remaining c = Some r -> (0 < bl_amount r)%N).
Proof. exact content_value. Qed.
Print Assumptions C21_conservation.
Theorem C21_accepts : forall now amount from lk rem created,
  (exists c, content_now now amount from lk rem created = Ok c) <->
  lk <> None /\ (0 < amount)%N /\ (amount <= value from mod 2 ^ 64)%N /\
  (rem = None <-> amount = (value from mod 2 ^ 64)%N).
Proof. exact content_accepts. Qed.
Print Assumptions C21_accepts.
(** the overflow: bills worth 2^64 + 4 pay 5 - 1 units *)
Example C21_case :
  rget (toy_bill 5 18446744073709551615) (fun b1 => rget (toy_bill 9 5) (fun b2 =>
  rget (toy_lock 11) (fun lk =>
  rget (content_now 0 4 [b1; b2] (Some lk) None None) (fun c =>
  Ok (paid c, value (ct_from c)))))) = Ok (4%N, 18446744073709551620%N).
Proof. vm_compute. reflexivity. Qed.

(** ** C22 *)
Theorem C22_refuted : forall (C : Curve) now b (sig : ringsig C) lk created,
  (0 < bl_amount b)%N -> (2 * bl_amount b < 2 ^ 64)%N -> unlock (bl_lock b) sig = Ok tt ->
  exists c e, content_now now (2 * bl_amount b) [b; b] (Some lk) None created = Ok c /\
    expense_now now (Some c) (Some [sig; sig]) = Ok e /\ ex_content e = c /\
    paid c = (2 * bl_amount b)%N /\ distinct_value [] (ct_from c) = bl_amount b.
Proof. exact @money_from_nothing. Qed.
Print Assumptions C22_refuted.
(** missing: inputs listed more than once *)
Theorem C22_distinct_partial : forall now amount from lk rem created c,
  content_now now amount from lk rem created = Ok c -> NoDup (map bl_hash from) ->
  (paid c <= distinct_value [] from)%N.
Proof. exact no_money_distinct. Qed.
Print Assumptions C22_distinct_partial.
Example C22_case :
  rget (toy_bill 5 100) (fun b => rget (toy_sig b 5) (fun s => @unlock toy (bl_lock b) s)) = Ok tt.
Proof. vm_compute. reflexivity. Qed.

(** ** C23 *)
Theorem C23_one_signature_each : forall (C : Curve) now c (sigs : list (ringsig C)),
  (exists e, expense_now now (Some c) (Some sigs) = Ok e) <->
  length sigs = length (ct_from c) /\ Forall2 (fun b s => unlock (bl_lock b) s = Ok tt) (ct_from c) sigs.
Proof. exact @expense_accepted_iff. Qed.
Print Assumptions C23_one_signature_each.
Theorem C23_fields : forall (C : Curve) now c (sigs : list (ringsig C)) e, expense_now now (Some c) (Some sigs) = Ok e ->
  ex_content e = c /\ ex_sigs e = sigs /\ im_created (ex_im e) = im_created (ct_im c).
Proof. exact @expense_fields. Qed.
Print Assumptions C23_fields.
Theorem C23_missing : forall (C : Curve) now ct (sigs : option (list (ringsig C))),
  ct = None \/ sigs = None -> expense_now now ct sigs = Err.
Proof. exact @expense_needs_both. Qed.
Print Assumptions C23_missing.
(** a signature for the wrong bill, and too few signatures *)
Example C23_case :
  rget (toy_bill 5 100) (fun b1 => rget (toy_bill 9 50) (fun b2 =>
  rget (toy_sig b1 5) (fun s1 => rget (toy_sig b2 9) (fun s2 =>
  rget (toy_lock 11) (fun lk =>
  rget (content_now 0 150 [b1; b2] (Some lk) None None) (fun c =>
  Ok (map (fun ss => is_ok (@expense_now toy 0 (Some c) (Some ss))) [[s1; s2]; [s2; s1]; [s1]; [s1; s2; s2]]))))))) =
  Ok [true; false; false; false].
Proof. vm_compute. reflexivity. Qed.

(** ** C24 *)
Theorem C24_bill : forall b1 b2, built_bill b1 -> built_bill b2 -> bl_hash b1 = bl_hash b2 ->
  (lk_hash (bl_lock b1) = lk_hash (bl_lock b2) /\ bl_amount b1 = bl_amount b2) \/
  sha_collision (bill_text b1) (bill_text b2).
Proof. exact bill_hash_commits. Qed.
Print Assumptions C24_bill.
Theorem C24_content : forall c1 c2, built_content c1 -> built_content c2 ->
  (value (ct_from c1) < 2 ^ 64)%N -> (value (ct_from c2) < 2 ^ 64)%N ->
  ct_hash c1 = ct_hash c2 ->
  (lk_hash (bl_lock (ct_to c1)) = lk_hash (bl_lock (ct_to c2)) /\
   bl_amount (ct_to c1) = bl_amount (ct_to c2) /\
   map bl_hash (ct_from c1) = map bl_hash (ct_from c2) /\
   option_map (fun b => lk_hash (bl_lock b)) (ct_remaining c1) =
   option_map (fun b => lk_hash (bl_lock b)) (ct_remaining c2)) \/
  sha_collision (content_text c1) (content_text c2) \/
  bill_collision_in (ct_from c1) (ct_from c2).
Proof. exact content_hash_commits. Qed.
Print Assumptions C24_content.
(** the hypotheses are met by an actual content *)
Definition e_lock (n : N) : lock := Lock (Immutable (rhash n) 0) [rhash n].
Definition e_bill (n amount : N) : bill := Bill (Immutable (from_multi [rhash n; dec amount]) 0) (e_lock n) amount.
Lemma e_bill_built : forall n amount, (0 < amount < 2 ^ 64)%N -> built_bill (e_bill n amount).
Proof.
  intros n amount H. exists 0%Z, (e_lock n), amount, None. split; [apply rhash_64|]. split; [apply H|].
  apply bill_now_iff. exists (e_lock n). split; [reflexivity|]. split; [apply H|reflexivity].
Qed.
Example C24_case : exists c, content_now 0 70 [e_bill 1 100; e_bill 2 50] (Some (e_lock 3)) (Some (e_lock 1)) None = Ok c /\
  built_content c /\ (value (ct_from c) = 150)%N.
Proof.
  destruct (proj2 (C21_accepts 0 70 [e_bill 1 100; e_bill 2 50] (Some (e_lock 3)) (Some (e_lock 1)) None)) as [c Hc].
  - split; [discriminate|]. split; [reflexivity|]. split; [intro X; vm_compute in X; discriminate|].
    split; [discriminate|]. intro X. vm_compute in X. discriminate.
  - exists c. split; [exact Hc|]. split.
    + exists 0%Z, 70%N, [e_bill 1 100; e_bill 2 50], (e_lock 3), (Some (e_lock 1)), None.
      split; [reflexivity|]. split; [apply rhash_64|]. split; [repeat constructor; apply e_bill_built; split; reflexivity|].
      split; [|exact Hc]. intros r E. injection E as <-. apply rhash_64.
    + apply content_value in Hc as (-> & _). reflexivity.
Qed.

(** ** C25 *)
Theorem C25_refuted_address : forall now s rs u created,
  exists a1 a2, address_now now (Some s) rs u created = Ok a1 /\
    address_now now None (s :: rs) u created = Ok a2 /\
    ad_hash a1 = ad_hash a2 /\ ad_sender a1 <> ad_sender a2 /\ ad_recipients a1 <> ad_recipients a2.
Proof. exact address_hash_ambiguous. Qed.
Print Assumptions C25_refuted_address.
Theorem C25_refuted_transaction : forall (C : Curve) now a (fees : list (@expense C)) created,
  exists t1 t2, transaction_now now (Some a) None fees created = Ok t1 /\
    transaction_now now None (Some (ad_hash a)) fees created = Ok t2 /\
    tx_hash t1 = tx_hash t2 /\ tx_address t1 <> tx_address t2 /\ tx_bucket t1 <> tx_bucket t2.
Proof. exact @transaction_hash_ambiguous. Qed.
Print Assumptions C25_refuted_transaction.
(** missing: pairs whose optional parts differ, or where one has a single part and
    the other several *)
Theorem C25_address_partial : forall a1 a2, built_address a1 -> built_address a2 ->
  (ad_sender a1 = None <-> ad_sender a2 = None) -> (ad_subject a1 = None <-> ad_subject a2 = None) ->
  (address_parts a1 = 1 <-> address_parts a2 = 1) -> ad_hash a1 = ad_hash a2 ->
  (ad_sender a1 = ad_sender a2 /\ ad_recipients a1 = ad_recipients a2 /\ ad_subject a1 = ad_subject a2) \/
  sha_collision (address_text a1) (address_text a2).
Proof. exact address_hash_commits. Qed.
Print Assumptions C25_address_partial.
Theorem C25_transaction_partial : forall (C : Curve) (t1 t2 : @transaction C), built_transaction t1 -> built_transaction t2 ->
  (tx_address t1 = None <-> tx_address t2 = None) -> (tx_bucket t1 = None <-> tx_bucket t2 = None) ->
  (transaction_parts t1 = 1 <-> transaction_parts t2 = 1) -> tx_hash t1 = tx_hash t2 ->
  (option_map ad_hash (tx_address t1) = option_map ad_hash (tx_address t2) /\
   tx_bucket t1 = tx_bucket t2 /\ map ex_hash (tx_fees t1) = map ex_hash (tx_fees t2)) \/
  sha_collision (transaction_text t1) (transaction_text t2).
Proof. exact @transaction_hash_commits. Qed.
Print Assumptions C25_transaction_partial.
Example C25_case : exists a t, built_address a /\ address_parts a = 4 /\
  @built_transaction toy t /\ transaction_parts t = 2 /\ tx_address t = Some a.
Proof.
  assert (A : exists a, built_address a /\ address_parts a = 4).
  { eexists. split; [exists 0%Z, (Some (rhash 1)), [rhash 2; rhash 3], (Some (rhash 4)), None|].
    - split; [intros h E; injection E as <-; apply rhash_64|]. split; [repeat constructor; apply rhash_64|].
      split; [intros h E; injection E as <-; apply rhash_64|].
      apply address_now_iff. split; [left; discriminate|reflexivity].
    - reflexivity. }
  destruct A as (a & A & P). exists a. eexists. split; [exact A|]. split; [exact P|]. split.
  - exists 0%Z, (Some a), (Some (rhash 5)), [], None. split; [|split; [|split; [constructor|]]].
    + intros a' E. injection E as <-. apply built_address_hash in A as (-> & _). apply from_bytes_length.
    + intros h E. injection E as <-. apply rhash_64.
    + apply transaction_now_iff. split; [left; discriminate|reflexivity].
  - split; reflexivity.
Qed.

(** ** C26 *)
Theorem C26_block : forall (C : Curve) (b1 b2 : @block C), built_block b1 -> built_block b2 -> bk_hash b1 = bk_hash b2 ->
  (gn_hash (bk_genesis b1) = gn_hash (bk_genesis b2) /\ bk_additional b1 = bk_additional b2 /\
   map tx_hash (bk_trx b1) = map tx_hash (bk_trx b2)) \/
  sha_collision (block_text b1) (block_text b2).
Proof. exact @block_hash_commits. Qed.
Print Assumptions C26_block.
(** mined with or without an empty mining text on both sides *)
Theorem C26_mined_block : forall (C : Curve) (b1 b2 : @mined_block C), built_mined_block b1 -> built_mined_block b2 ->
  (mb_mining b1 = [] <-> mb_mining b2 = []) -> mb_hash b1 = mb_hash b2 ->
  (bk_hash (mb_block b1) = bk_hash (mb_block b2) /\ mb_mining b1 = mb_mining b2) \/
  sha_collision (mined_block_text b1) (mined_block_text b2).
Proof. exact @mined_block_hash_commits. Qed.
Print Assumptions C26_mined_block.
(** in general: equal, or one of the three coincidences of libs/hash *)
Theorem C26_mined_block_any : forall (C : Curve) (b1 b2 : @mined_block C), built_mined_block b1 -> built_mined_block b2 ->
  mb_hash b1 = mb_hash b2 ->
  (bk_hash (mb_block b1) = bk_hash (mb_block b2) /\ mb_mining b1 = mb_mining b2) \/
  hash_coincidence (mined_block_text b1) (mined_block_text b2).
Proof. exact @mined_block_hash_any. Qed.
Print Assumptions C26_mined_block_any.
Theorem C26_link : forall (C : Curve) (l1 l2 : @chain_link C), built_link l1 -> built_link l2 -> ln_hash l1 = ln_hash l2 ->
  (ln_prev l1 = ln_prev l2 /\ bk_hash (ln_next l1) = bk_hash (ln_next l2) /\ ln_index l1 = ln_index l2) \/
  sha_collision (link_text l1) (link_text l2).
Proof. exact @link_hash_commits. Qed.
Print Assumptions C26_link.
Theorem C26_mined_link : forall (C : Curve) (b1 b2 : @mined_link C), built_mined_link b1 -> built_mined_link b2 ->
  (ml_mining b1 = [] <-> ml_mining b2 = []) -> ml_hash b1 = ml_hash b2 ->
  (ln_hash (ml_link b1) = ln_hash (ml_link b2) /\ ml_mining b1 = ml_mining b2) \/
  sha_collision (mined_link_text b1) (mined_link_text b2).
Proof. exact @mined_link_hash_commits. Qed.
Print Assumptions C26_mined_link.
Theorem C26_mined_link_any : forall (C : Curve) (b1 b2 : @mined_link C), built_mined_link b1 -> built_mined_link b2 ->
  ml_hash b1 = ml_hash b2 ->
  (ln_hash (ml_link b1) = ln_hash (ml_link b2) /\ ml_mining b1 = ml_mining b2) \/
  hash_coincidence (mined_link_text b1) (mined_link_text b2).
Proof. exact @mined_link_hash_any. Qed.
Print Assumptions C26_mined_link_any.
Theorem C26_chain : forall (C : Curve) (c1 c2 : @chain C), built_chain c1 -> built_chain c2 -> ch_hash c1 = ch_hash c2 ->
  (gn_hash (ch_genesis c1) = gn_hash (ch_genesis c2) /\ mb_hash (ch_root c1) = mb_hash (ch_root c2) /\
   ml_hash (ch_head c1) = ml_hash (ch_head c2) /\ ch_total c1 = ch_total c2) \/
  sha_collision (chain_text c1) (chain_text c2).
Proof. exact @chain_hash_commits. Qed.
Print Assumptions C26_chain.
Theorem C26_state : forall (C : Curve) (s1 s2 : @state C), built_state s1 -> built_state s2 -> st_hash s1 = st_hash s2 ->
  (st_chain s1 = st_chain s2 /\ st_prev s1 = st_prev s2 /\ st_height s1 = st_height s2 /\
   map tx_hash (st_trx s1) = map tx_hash (st_trx s2)) \/
  sha_collision (state_text s1) (state_text s2).
Proof. exact @state_hash_commits. Qed.
Print Assumptions C26_state.

(** a whole chain of built objects *)
Definition f_11_5 : float64 := S754_finite false 6473924464345088 (-49).
Definition f_1_5 : float64 := S754_finite false 6755399441055744 (-52).
Example C26_case : exists (t : @transaction toy) g b mb l ml ch st,
  built_transaction t /\ built_genesis g /\ built_block b /\ built_mined_block mb /\ built_link l /\
  built_mined_link ml /\ built_chain ch /\ built_state st /\
  bk_trx b = [t; t] /\ mb_block mb = b /\ ln_next l = b /\ ml_link ml = l /\ ch_head ch = ml /\ st_trx st = [t].
Proof.
  assert (T : exists t : @transaction toy, built_transaction t).
  { eexists. exists 0%Z, None, (Some (rhash 5)), [], None. split; [discriminate|]. split; [intros h E; injection E as <-; apply rhash_64|].
    split; [constructor|]. apply transaction_now_iff. split; [right; left; discriminate|reflexivity]. }
  destruct T as [t T]. pose proof (transaction_hash64 _ T) as LT.
  assert (G : exists g, built_genesis g).
  { eexists. exists 0%Z, 1%N, f_1_5, 3%N, (e_bill 1 100), None. split; [reflexivity|]. split; [reflexivity|].
    split; [apply from_bytes_length|]. apply genesis_now_iff. exists (e_bill 1 100). repeat split. }
  destruct G as [g G]. pose proof (genesis_hash64 _ G) as LG.
  assert (B : exists b : @block toy, built_block b /\ bk_trx b = [t; t]).
  { eexists. split; [exists 0%Z, g, 7%N, [t; t], None|].
    - split; [exact LG|]. split; [reflexivity|]. split; [repeat constructor; exact LT|].
      apply block_now_iff. exists g. split; [reflexivity|]. split; [discriminate|reflexivity].
    - reflexivity. }
  destruct B as (b & B & Tb). pose proof (block_hash64 _ B) as LB.
  assert (M : exists mb : @mined_block toy, built_mined_block mb /\ mb_block mb = b).
  { eexists. split; [exists 0%Z, b, (s2b "17"), None|].
    - split; [exact LB|]. apply mined_block_now_iff. exists b. split; reflexivity.
    - reflexivity. }
  destruct M as (mb & M & Eb).
  assert (L : exists l : @chain_link toy, built_link l /\ ln_next l = b).
  { eexists. split; [exists 0%Z, (rhash 8), b, 2%N, None|].
    - split; [apply rhash_64|]. split; [exact LB|]. split; [reflexivity|]. apply link_now_iff. exists (rhash 8), b. repeat split.
    - reflexivity. }
  destruct L as (l & L & El).
  assert (ML : exists ml : @mined_link toy, built_mined_link ml /\ ml_link ml = l).
  { eexists. split; [exists 0%Z, l, (s2b "4"), None|].
    - split; [apply link_hash64; exact L|]. apply mined_link_now_iff. exists l. split; reflexivity.
    - reflexivity. }
  destruct ML as (ml & ML & Em).
  assert (Ch : exists ch : @chain toy, built_chain ch /\ ch_head ch = ml).
  { eexists. split; [exists 0%Z, g, mb, ml, 4%N, None|].
    - split; [exact LG|]. split; [apply mined_block_hash64; exact M|]. split; [apply mined_link_hash64; exact ML|].
      split; [reflexivity|]. apply chain_now_iff. exists g, mb, ml. repeat split.
      unfold known_trx. rewrite Eb, Em, El, Tb. vm_compute. discriminate.
    - reflexivity. }
  destruct Ch as (ch & Ch & Ec).
  assert (S : exists st : @state toy, built_state st /\ st_trx st = [t]).
  { eexists. split; [exists 0%Z, (rhash 1), (rhash 2), 3%N, [t], None|].
    - split; [apply rhash_64|]. split; [apply rhash_64|]. split; [reflexivity|]. split; [repeat constructor; exact LT|].
      apply state_now_iff. exists (rhash 1), (rhash 2). repeat split. discriminate.
    - reflexivity. }
  destruct S as (st & S & Es). exists t, g, b, mb, l, ml, ch, st. repeat split; assumption.
Qed.

(** ** C27 *)
(** base 1, increase 11.5 and base 11, increase 1.5 *)
Theorem C27_refuted : forall now b lnk created, (0 < lnk)%N ->
  exists g1 g2, genesis_now now 1 f_11_5 lnk (Some b) created = Ok g1 /\
    genesis_now now 11 f_1_5 lnk (Some b) created = Ok g2 /\
    gn_hash g1 = gn_hash g2 /\ gn_base g1 = 1%N /\ gn_base g2 = 11%N.
Proof.
  intros now b lnk created L.
  destruct (genesis_same_text now b lnk created 1 11 f_11_5 f_1_5) as (g1 & g2 & H1 & H2 & H3 & H4 & H5 & _);
    try reflexivity; [exact L|]. exists g1, g2. auto.
Qed.
Print Assumptions C27_refuted.
(** increases below half of 10^-12 all have the same text *)
Theorem C27_refuted_rounding : forall now b base lnk created, (0 < base)%N -> (0 < lnk)%N ->
  let i1 := S754_finite false 4503599627370496 (-112) in
  let i2 := S754_finite false 4503599627370496 (-113) in
  exists g1 g2, genesis_now now base i1 lnk (Some b) created = Ok g1 /\
    genesis_now now base i2 lnk (Some b) created = Ok g2 /\
    gn_hash g1 = gn_hash g2 /\ gn_increase g1 <> gn_increase g2.
Proof.
  intros now b base lnk created B L i1 i2.
  destruct (genesis_same_text now b lnk created base base i1 i2) as (g1 & g2 & H1 & H2 & H3 & _ & _ & H6 & H7);
    try reflexivity; try assumption. exists g1, g2. repeat split; auto. rewrite H6, H7. discriminate.
Qed.
Print Assumptions C27_refuted_rounding.
Example C27_floats : map (valid_binary 53 1024)
  [f_11_5; f_1_5; S754_finite false 4503599627370496 (-112); S754_finite false 4503599627370496 (-113)] =
  [true; true; true; true].
Proof. reflexivity. Qed.
(** What holds: bill, link difficulty and the joint text of base and increase; base
    and printed increase when the bases have the same number of digits. *)
Theorem C27_commits_partial : forall g1 g2, built_genesis g1 -> built_genesis g2 -> gn_hash g1 = gn_hash g2 ->
  (bl_hash (gn_bill g1) = bl_hash (gn_bill g2) /\ gn_link g1 = gn_link g2 /\
   dec (gn_base g1) ++ format_f12 (gn_increase g1) = dec (gn_base g2) ++ format_f12 (gn_increase g2) /\
   (length (dec (gn_base g1)) = length (dec (gn_base g2)) ->
    gn_base g1 = gn_base g2 /\ format_f12 (gn_increase g1) = format_f12 (gn_increase g2))) \/
  sha_collision (genesis_text g1) (genesis_text g2).
Proof. exact genesis_hash_commits. Qed.
Print Assumptions C27_commits_partial.
