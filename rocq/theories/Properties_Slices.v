(** C109: objects and the slices they were made from. *)
From Verif Require Import Base HashModel HashSpec EntitiesModel SignModel PiastresModel PiastresSpec PiastresProofs SliceModel SliceProofs ToyCurve Properties_Piastres.

(** ** C109.  The slice that PublicKeys, From, Signatures and Transactions give out is the one the builder was given; an assignment to an
    element of it changes what the object says, but not its hash.  [old] is the element the object was built with. *)
Theorem C109_refuted_lock : forall h now keys created l i k old, hlock_now h now keys created = Ok l -> Forall hash64 (contents h keys) ->
  nth_error (contents h keys) i = Some old -> hash64 k -> k <> old ->
  let h' := assign h (hlock_slice l) i k in
  lk_hash (hlock_seen h' l) = lk_hash (hlock_seen h l) /\
  nth_error (lk_keys (hlock_seen h l)) i = Some old /\ nth_error (lk_keys (hlock_seen h' l)) i = Some k /\
  (forall now' created' l', lock_now now' (lk_keys (hlock_seen h' l)) created' = Ok l' -> lk_hash l' = lk_hash (hlock_seen h' l) ->
     sha_collision (concat (lk_keys (hlock_seen h l))) (concat (lk_keys (hlock_seen h' l)))).
Proof. exact hlock_changes. Qed.
Print Assumptions C109_refuted_lock.
(** a bill of another amount: the content no longer pays what it takes *)
Theorem C109_refuted_content : forall h now amount from lk rem created c i b old, hcontent_now h now amount from lk rem created = Ok c ->
  nth_error (contents h from) i = Some old -> is_u64 (bl_amount old) -> is_u64 (bl_amount b) -> bl_amount b <> bl_amount old ->
  let h' := assign h (hc_from c) i b in
  ct_hash (hcontent_seen h' c) = ct_hash (hcontent_seen h c) /\
  paid (hcontent_seen h c) = (value (ct_from (hcontent_seen h c)) mod 2 ^ 64)%N /\
  paid (hcontent_seen h' c) <> (value (ct_from (hcontent_seen h' c)) mod 2 ^ 64)%N.
Proof. exact hcontent_changes. Qed.
Print Assumptions C109_refuted_content.
(** a signature that does not open the lock: the builder would not accept what the expense now says *)
Theorem C109_refuted_expense : forall (C : Curve) (h : arrays (ringsig C)) now ct sigs e i b s, hexpense_now h now ct sigs = Ok e ->
  nth_error (ct_from ct) i = Some b -> unlock (bl_lock b) s <> Ok tt ->
  let h' := assign h (he_sigs e) i s in
  ex_hash (hexpense_seen h' e) = ex_hash (hexpense_seen h e) /\
  Forall2 (fun b s => unlock (bl_lock b) s = Ok tt) (ct_from (ex_content (hexpense_seen h e))) (ex_sigs (hexpense_seen h e)) /\
  nth_error (ex_sigs (hexpense_seen h' e)) i = Some s /\
  forall now', expense_now now' (Some (ex_content (hexpense_seen h' e))) (Some (ex_sigs (hexpense_seen h' e))) = Err \/
               expense_now now' (Some (ex_content (hexpense_seen h' e))) (Some (ex_sigs (hexpense_seen h' e))) = Panic.
Proof. exact @hexpense_changes. Qed.
Print Assumptions C109_refuted_expense.
(** another transaction in a block that is mined already: hashes and mining results stay, though no block with these transactions has that hash *)
Theorem C109_refuted_mined : forall (C : Curve) (h : arrays (@transaction C)) now gen additional trx created b now2 mining created2 m i t old,
  hblock_now h now gen additional trx created = Ok b -> hmined_now h now2 b mining created2 = Ok m ->
  nth_error (contents h trx) i = Some old -> tx_hash t <> tx_hash old ->
  let h' := assign h (hb_trx (hm_block m)) i t in
  mb_hash (hmined_seen h' m) = mb_hash (hmined_seen h m) /\ bk_hash (mb_block (hmined_seen h' m)) = bk_hash (mb_block (hmined_seen h m)) /\
  mb_mining (hmined_seen h' m) = mb_mining (hmined_seen h m) /\
  nth_error (bk_trx (mb_block (hmined_seen h m))) i = Some old /\ nth_error (bk_trx (mb_block (hmined_seen h' m))) i = Some t /\
  (built_block (mb_block (hmined_seen h m)) -> forall x, built_block x ->
     gn_hash (bk_genesis x) = gn_hash (hb_genesis b) -> bk_additional x = hb_additional b -> bk_trx x = bk_trx (mb_block (hmined_seen h' m)) ->
     bk_hash x = bk_hash (mb_block (hmined_seen h' m)) -> sha_collision (block_text (mb_block (hmined_seen h m))) (block_text x)).
Proof. exact @hmined_changes. Qed.
Print Assumptions C109_refuted_mined.
(** another recipient of an address, and another fee of a transaction *)
Theorem C109_refuted_address : forall h now sender recipients subject created a i k old, haddress_now h now sender recipients subject created = Ok a ->
  nth_error (contents h recipients) i = Some old -> k <> old ->
  let h' := assign h (ha_recipients a) i k in
  ad_hash (haddress_seen h' a) = ad_hash (haddress_seen h a) /\
  nth_error (ad_recipients (haddress_seen h a)) i = Some old /\ nth_error (ad_recipients (haddress_seen h' a)) i = Some k /\
  (built_address (haddress_seen h a) -> forall x, built_address x ->
     ad_sender x = sender -> ad_subject x = subject -> ad_recipients x = ad_recipients (haddress_seen h' a) ->
     ad_hash x = ad_hash (haddress_seen h' a) -> sha_collision (address_text (haddress_seen h a)) (address_text x)).
Proof. exact haddress_changes. Qed.
Print Assumptions C109_refuted_address.
Theorem C109_refuted_transaction : forall (C : Curve) (h : arrays (@expense C)) now addr bucket fees created t i e old, htransaction_now h now addr bucket fees created = Ok t ->
  nth_error (contents h fees) i = Some old -> ex_hash e <> ex_hash old ->
  let h' := assign h (hx_fees t) i e in
  tx_hash (htransaction_seen h' t) = tx_hash (htransaction_seen h t) /\
  nth_error (tx_fees (htransaction_seen h t)) i = Some old /\ nth_error (tx_fees (htransaction_seen h' t)) i = Some e /\
  (built_transaction (htransaction_seen h t) -> forall x, built_transaction x ->
     tx_address x = addr -> tx_bucket x = bucket -> tx_fees x = tx_fees (htransaction_seen h' t) ->
     tx_hash x = tx_hash (htransaction_seen h' t) -> sha_collision (transaction_text (htransaction_seen h t)) (transaction_text x)).
Proof. exact @htransaction_changes. Qed.
Print Assumptions C109_refuted_transaction.
(** what holds: any assignments to other arrays leave the objects as they are *)
Theorem C109_stays_partial : forall (C : Curve) (hh : arrays hash) (hb : arrays bill) (hs : arrays (ringsig C)) (ht : arrays (@transaction C)) wh wb ws wt l c e b,
  Forall (fun w => sl_array (fst (fst w)) <> sl_array (hl_keys l)) wh -> Forall (fun w => sl_array (fst (fst w)) <> sl_array (hc_from c)) wb ->
  Forall (fun w => sl_array (fst (fst w)) <> sl_array (he_sigs e)) ws -> Forall (fun w => sl_array (fst (fst w)) <> sl_array (hb_trx b)) wt ->
  hlock_seen (assigns hh wh) l = hlock_seen hh l /\ hcontent_seen (assigns hb wb) c = hcontent_seen hb c /\
  hexpense_seen (assigns hs ws) e = hexpense_seen hs e /\ hblock_seen (assigns ht wt) b = hblock_seen ht b.
Proof. exact @seen_stays. Qed.
Print Assumptions C109_stays_partial.
Theorem C109_stays_more_partial : forall (C : Curve) (hh : arrays hash) (he : arrays (@expense C)) wh we a t,
  Forall (fun w => sl_array (fst (fst w)) <> sl_array (ha_recipients a)) wh -> Forall (fun w => sl_array (fst (fst w)) <> sl_array (hx_fees t)) we ->
  haddress_seen (assigns hh wh) a = haddress_seen hh a /\ htransaction_seen (assigns he we) t = htransaction_seen he t.
Proof. exact @seen_stays_more. Qed.
Print Assumptions C109_stays_more_partial.
(** when it is built, an object says what the other claims are about *)
Theorem C109_built_partial : forall C : Curve,
  (forall h now keys created l, hlock_now h now keys created = Ok l -> lock_now now (contents h keys) created = Ok (hlock_seen h l) /\ hlock_slice l = keys) /\
  (forall h now amount from lk rem created c, hcontent_now h now amount from lk rem created = Ok c ->
     content_now now amount (contents h from) lk rem created = Ok (hcontent_seen h c) /\ hc_from c = from) /\
  (forall (h : arrays (ringsig C)) now ct sigs e, hexpense_now h now ct sigs = Ok e ->
     expense_now now (Some ct) (Some (contents h sigs)) = Ok (hexpense_seen h e) /\ he_sigs e = sigs) /\
  (forall (h : arrays (@transaction C)) now gen additional trx created b, hblock_now h now gen additional trx created = Ok b ->
     block_now now gen additional (contents h trx) created = Ok (hblock_seen h b) /\ hb_trx b = trx) /\
  (forall (h : arrays (@transaction C)) now b mining created m, hmined_now h now b mining created = Ok m ->
     mined_block_now now (Some (hblock_seen h b)) mining created = Ok (hmined_seen h m) /\ hm_block m = b).
Proof.
  intro C. split; [exact hlock_at_once|]. split; [exact hcontent_at_once|]. split; [exact hexpense_at_once|]. split; [exact hblock_at_once|exact hmined_at_once].
Qed.
Print Assumptions C109_built_partial.
Theorem C109_built_more_partial : forall C : Curve,
  (forall h now sender recipients subject created a, haddress_now h now sender recipients subject created = Ok a ->
     address_now now sender (contents h recipients) subject created = Ok (haddress_seen h a) /\ ha_recipients a = recipients) /\
  (forall (h : arrays (@expense C)) now addr bucket fees created t, htransaction_now h now addr bucket fees created = Ok t ->
     transaction_now now addr bucket (contents h fees) created = Ok (htransaction_seen h t) /\ hx_fees t = fees).
Proof. intro C. split; [exact haddress_at_once|exact htransaction_at_once]. Qed.
Print Assumptions C109_built_more_partial.
(** Unlock goes by the keys of the time of building whatever is assigned later (its map is never given out) *)
Theorem C109_unlock_partial : forall (C : Curve) h now keys created l, hlock_now h now keys created = Ok l ->
  forall sig : ringsig C, hlock_unlock l sig = unlock (hlock_seen h l) sig.
Proof. exact @hlock_opens. Qed.
Print Assumptions C109_unlock_partial.

(** a lock over the last two of three keys; the second of them is replaced, by way of a slice over the whole array *)
Definition c109_heap : arrays hash := fun _ => [repeat x0a 64; repeat x1b 64; repeat x2c 64].
Example C109_case : exists l, hlock_now c109_heap 5 (Slice 7 1 2) None = Ok l /\
  lk_keys (hlock_seen c109_heap l) = [repeat x1b 64; repeat x2c 64] /\
  lk_keys (hlock_seen (assigns c109_heap [(Slice 7 0 3, 2, repeat x0a 64); (Slice 6 0 3, 1, repeat x0a 64)]) l) = [repeat x1b 64; repeat x0a 64].
Proof.
  destruct (lock_now 5 (contents c109_heap (Slice 7 1 2)) None) as [l| |] eqn:E.
  - unfold hlock_now. rewrite E. cbn [rbind]. eexists. split; [reflexivity|]. split; reflexivity.
  - exfalso. assert (X : lock_now 5 (contents c109_heap (Slice 7 1 2)) None = Ok (Lock (Immutable (from_multi [repeat x1b 64; repeat x2c 64]) 5) [repeat x1b 64; repeat x2c 64])).
    { apply lock_now_iff. split; [discriminate|]. split; [repeat constructor; cbn; intuition discriminate|reflexivity]. } congruence.
  - exfalso. assert (X : lock_now 5 (contents c109_heap (Slice 7 1 2)) None = Ok (Lock (Immutable (from_multi [repeat x1b 64; repeat x2c 64]) 5) [repeat x1b 64; repeat x2c 64])).
    { apply lock_now_iff. split; [discriminate|]. split; [repeat constructor; cbn; intuition discriminate|reflexivity]. } congruence.
Qed.
(** two bills and their signatures; then the first bill is replaced by one of another amount, the signatures by one another *)
Example C109_case_expense :
  rget (toy_bill 5 100) (fun b1 => rget (toy_bill 9 50) (fun b2 =>
  rget (toy_sig b1 5) (fun s1 => rget (toy_sig b2 9) (fun s2 =>
  rget (toy_lock 11) (fun lk =>
  let hb := fun _ => [b1; b2] in
  rget (hcontent_now hb 0 150 (Slice 3 0 2) (Some lk) None None) (fun c =>
  let hs := fun _ => [s1; s2] in
  rget (@hexpense_now toy hs 0 (hcontent_seen hb c) (Slice 3 0 2)) (fun e =>
  let c' := hcontent_seen (assign hb (hc_from c) 0 b2) c in
  let e' := hexpense_seen (assign hs (he_sigs e) 0 s2) e in
  Ok (paid c', value (ct_from c'), is_ok (@expense_now toy 0 (Some (ex_content e')) (Some (ex_sigs e')))))))))))  =
  Ok (150%N, 100%N, false).
Proof. vm_compute. reflexivity. Qed.
(** a block of two transactions *)
Example C109_case_mined : forall (C : Curve) (a b c : @transaction C) g, let h := fun _ => [a; b] in
  exists bk m, hblock_now h 0 (Some g) 3 (Slice 0 0 2) None = Ok bk /\ hmined_now h 0 bk (s2b "17") None = Ok m /\
  bk_trx (mb_block (hmined_seen h m)) = [a; b] /\ bk_trx (mb_block (hmined_seen (assign h (Slice 0 1 1) 0 c) m)) = [a; c].
Proof.
  intros C a b c g h.
  assert (E : exists x, block_now 0 (Some g) 3 [a; b] None = Ok x) by (eexists; apply block_now_iff; exists g; split; [reflexivity|]; split; [discriminate|reflexivity]).
  destruct E as [x E]. assert (Eb : hblock_now h 0 (Some g) 3 (Slice 0 0 2) None = Ok (HBlock (bk_im x) (bk_genesis x) (bk_additional x) (Slice 0 0 2))).
  { unfold hblock_now. change (contents h (Slice 0 0 2)) with [a; b]. rewrite E. reflexivity. }
  assert (E2 : forall y : block, exists m, mined_block_now 0 (Some y) (s2b "17") None = Ok m) by (intro y; eexists; apply mined_block_now_iff; exists y; split; reflexivity).
  destruct (E2 (hblock_seen h (HBlock (bk_im x) (bk_genesis x) (bk_additional x) (Slice 0 0 2)))) as [m Em].
  eexists. eexists. split; [exact Eb|]. split; [unfold hmined_now; rewrite Em; reflexivity|]. split; reflexivity.
Qed.
(** a transaction of two fees and an address of two recipients *)
Example C109_case_more : forall (C : Curve) (a b c : @expense C), let h := fun _ => [a; b] in let k := fun _ => [repeat x0a 64; repeat x1b 64] in
  exists t d, htransaction_now h 0 None None (Slice 0 0 2) None = Ok t /\ haddress_now k 0 None (Slice 4 0 2) None None = Ok d /\
  tx_fees (htransaction_seen h t) = [a; b] /\ tx_fees (htransaction_seen (assign h (Slice 0 1 1) 0 c) t) = [a; c] /\
  ad_recipients (haddress_seen (assign k (Slice 4 0 2) 0 (repeat x2c 64)) d) = [repeat x2c 64; repeat x1b 64].
Proof.
  intros C a b c h k.
  assert (E : exists x, transaction_now 0 None None [a; b] None = Ok x) by (eexists; apply transaction_now_iff; split; [right; right; discriminate|reflexivity]).
  assert (F : exists x, address_now 0 None [repeat x0a 64; repeat x1b 64] None None = Ok x) by (eexists; apply address_now_iff; split; [right; left; discriminate|reflexivity]).
  destruct E as [x E]. destruct F as [y F].
  assert (Et : htransaction_now h 0 None None (Slice 0 0 2) None = Ok (HTransaction (tx_im x) (tx_address x) (tx_bucket x) (Slice 0 0 2))).
  { unfold htransaction_now. change (contents h (Slice 0 0 2)) with [a; b]. rewrite E. reflexivity. }
  assert (Ea : haddress_now k 0 None (Slice 4 0 2) None None = Ok (HAddress (ad_im y) (ad_sender y) (Slice 4 0 2) (ad_subject y))).
  { unfold haddress_now. change (contents k (Slice 4 0 2)) with [repeat x0a 64; repeat x1b 64]. rewrite F. reflexivity. }
  eexists. eexists. split; [exact Et|]. split; [exact Ea|]. split; [reflexivity|]. split; reflexivity.
Qed.
