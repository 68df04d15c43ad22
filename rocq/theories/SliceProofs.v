From Coq Require Import Lia ZifyBool ZifyNat ZifyN.
From Verif Require Import Base BaseFacts HashModel HashSpec HashProofs EntitiesModel SignModel PiastresModel PiastresSpec PiastresProofs SliceModel.

(** ** Slices *)
Lemma put_at_length : forall A i (v : A) l, length (put_at i v l) = length l.
Proof. intros A i v l. revert i. induction l as [|x l IH]; intros [|i]; cbn [put_at length]; auto. Qed.
Lemma put_at_skip : forall A n i (v : A) l, skipn n (put_at (n + i) v l) = put_at i v (skipn n l).
Proof. intros A n. induction n as [|n IH]; intros i v [|x l]; cbn [skipn Nat.add put_at]; auto; destruct i; reflexivity. Qed.
Lemma put_at_first : forall A n i (v : A) l, firstn n (put_at i v l) = put_at i v (firstn n l).
Proof. intros A n. induction n as [|n IH]; intros [|i] v [|x l]; cbn [firstn put_at]; auto; f_equal; apply IH. Qed.
Lemma put_at_nth : forall A i (v : A) l, i < length l -> nth_error (put_at i v l) i = Some v.
Proof. intros A i v l. revert i. induction l as [|x l IH]; intros [|i] L; cbn [length put_at nth_error] in *; try lia; [reflexivity|apply IH; lia]. Qed.
Lemma put_at_other : forall A i j (v : A) l, i <> j -> nth_error (put_at i v l) j = nth_error l j.
Proof. intros A i j v l. revert i j. induction l as [|x l IH]; intros [|i] [|j] D; cbn [put_at nth_error]; try reflexivity; try (exfalso; lia); apply IH; lia. Qed.
Lemma assign_contents : forall A (h : arrays A) s i v, contents (assign h s i v) s = put_at i v (contents h s).
Proof. intros A h s i v. unfold contents, assign. rewrite Nat.eqb_refl, put_at_skip, put_at_first. reflexivity. Qed.
Lemma assigns_other : forall A (ws : list (slice * nat * A)) h s, Forall (fun w => sl_array (fst (fst w)) <> sl_array s) ws ->
  contents (assigns h ws) s = contents h s.
Proof.
  intros A ws. induction ws as [|w ws IH]; intros h s F; [reflexivity|]. apply Forall_cons_iff in F as [D F]. unfold assigns. cbn [fold_left].
  change (contents (assigns (assign h (fst (fst w)) (snd (fst w)) (snd w)) ws) s = contents h s). rewrite IH by exact F.
  unfold contents, assign. destruct (Nat.eqb_spec (sl_array s) (sl_array (fst (fst w)))); [congruence|reflexivity].
Qed.

(** ** Locks *)
Section WithCurve.
Context {C : Curve}.
Lemma hlock_at_once : forall h now keys created l, hlock_now h now keys created = Ok l ->
  lock_now now (contents h keys) created = Ok (hlock_seen h l) /\ hlock_slice l = keys.
Proof.
  intros h now keys created l H. apply rbind_Ok in H as (k & E & H). injection H as <-. unfold hlock_seen, hlock_slice. cbn [hl_im hl_keys].
  pose proof E as E'. apply lock_now_iff in E' as (_ & _ & ->). cbn [lk_im] in *. auto.
Qed.
Lemma hlock_opens : forall h now keys created l, hlock_now h now keys created = Ok l ->
  forall sig : ringsig C, hlock_unlock l sig = unlock (hlock_seen h l) sig.
Proof. intros h now keys created l H. apply rbind_Ok in H as (k & E & H). injection H as <-. reflexivity. Qed.
Lemma hlock_changes : forall h now keys created l i k old, hlock_now h now keys created = Ok l -> Forall hash64 (contents h keys) ->
  nth_error (contents h keys) i = Some old -> hash64 k -> k <> old ->
  let h' := assign h (hlock_slice l) i k in
  lk_hash (hlock_seen h' l) = lk_hash (hlock_seen h l) /\
  nth_error (lk_keys (hlock_seen h l)) i = Some old /\ nth_error (lk_keys (hlock_seen h' l)) i = Some k /\
  (forall now' created' l', lock_now now' (lk_keys (hlock_seen h' l)) created' = Ok l' -> lk_hash l' = lk_hash (hlock_seen h' l) ->
     sha_collision (concat (lk_keys (hlock_seen h l))) (concat (lk_keys (hlock_seen h' l)))).
Proof.
  intros h now keys created l i k old H F N K D h'. destruct (hlock_at_once _ _ _ _ _ H) as (E & S).
  assert (LN : i < length (contents h keys)) by (apply nth_error_Some; rewrite N; discriminate).
  assert (SK : hl_keys l = keys) by exact S.
  assert (CK : contents h' keys = put_at i k (contents h keys)) by (unfold h'; rewrite S; apply assign_contents).
  split; [reflexivity|]. unfold hlock_seen in *. cbn [lk_keys lk_hash lk_im] in *. rewrite SK in *.
  split; [exact N|]. rewrite CK. split; [apply put_at_nth; exact LN|].
  intros now' created' l' E' Hh.
  assert (B1 : built_lock (Lock (hl_im l) (contents h keys))) by (exists now, (contents h keys), created; split; [exact F|exact E]).
  assert (F' : Forall hash64 (put_at i k (contents h keys))).
  { clear - F K. revert i. induction F as [|x xs Hx F IH]; intros [|i]; cbn [put_at]; constructor; auto. }
  assert (B2 : built_lock l') by (exists now', (put_at i k (contents h keys)), created'; split; [exact F'|exact E']).
  pose proof E' as E2. apply lock_now_iff in E2 as (_ & _ & L2).
  destruct (lock_hash_commits _ _ B1 B2) as [X|X].
  - rewrite L2. cbn [lk_keys]. rewrite put_at_length. reflexivity.
  - rewrite Hh. reflexivity.
  - exfalso. cbn [lk_keys] in X. rewrite L2 in X. cbn [lk_keys] in X. assert (Y : nth_error (contents h keys) i = Some k) by (rewrite X; apply put_at_nth; exact LN).
    rewrite N in Y. injection Y as ->. apply D. reflexivity.
  - rewrite L2 in X. cbn [lk_keys] in X. exact X.
Qed.

(** ** Contents *)
Lemma hcontent_at_once : forall h now amount from lk rem created c, hcontent_now h now amount from lk rem created = Ok c ->
  content_now now amount (contents h from) lk rem created = Ok (hcontent_seen h c) /\ hc_from c = from.
Proof.
  intros h now amount from lk rem created c H. apply rbind_Ok in H as (k & E & H). injection H as <-. unfold hcontent_seen. cbn [hc_im hc_from hc_to hc_remaining].
  destruct (content_value _ _ _ _ _ _ _ E) as (F & _). split; [|reflexivity]. rewrite E. f_equal. rewrite <- F. destruct k. reflexivity.
Qed.
Lemma value_put : forall i b l old, nth_error l i = Some old -> (value (put_at i b l) + bl_amount old = value l + bl_amount b)%N.
Proof.
  unfold value. intros i b l old. revert i. induction l as [|x l IH]; intros [|i] E; cbn [nth_error put_at map fold_right] in *; try discriminate E.
  - injection E as ->. lia.
  - specialize (IH i E). lia.
Qed.
Lemma same_rest : forall a b c d : N, (a + b = c + d)%N -> (b < 2 ^ 64)%N -> (d < 2 ^ 64)%N -> (c mod 2 ^ 64 = a mod 2 ^ 64)%N -> b = d.
Proof.
  intros a b c d H Hb Hd E. pose proof (N.div_mod' a (2 ^ 64)) as A. pose proof (N.div_mod' c (2 ^ 64)) as B. rewrite E in B.
  set (M := (2 ^ 64)%N) in *. clearbody M. set (qa := (a / M)%N) in *. set (qc := (c / M)%N) in *. set (r := (a mod M)%N) in *. clearbody qa qc r.
  assert (X : (M * qa + b = M * qc + d)%N) by lia. destruct (N.lt_trichotomy qa qc) as [L|[->|L]]; [|lia|].
  - assert (M * (qa + 1) <= M * qc)%N by (apply N.mul_le_mono_l; lia). lia.
  - assert (M * (qc + 1) <= M * qa)%N by (apply N.mul_le_mono_l; lia). lia.
Qed.
Lemma hcontent_changes : forall h now amount from lk rem created c i b old, hcontent_now h now amount from lk rem created = Ok c ->
  nth_error (contents h from) i = Some old -> is_u64 (bl_amount old) -> is_u64 (bl_amount b) -> bl_amount b <> bl_amount old ->
  let h' := assign h (hc_from c) i b in
  ct_hash (hcontent_seen h' c) = ct_hash (hcontent_seen h c) /\
  paid (hcontent_seen h c) = (value (ct_from (hcontent_seen h c)) mod 2 ^ 64)%N /\
  paid (hcontent_seen h' c) <> (value (ct_from (hcontent_seen h' c)) mod 2 ^ 64)%N.
Proof.
  intros h now amount from lk rem created c i b old H N U V D h'. destruct (hcontent_at_once _ _ _ _ _ _ _ _ H) as (E & S).
  destruct (content_value _ _ _ _ _ _ _ E) as (F & _ & _ & _ & P & _). split; [reflexivity|]. rewrite F. split; [exact P|].
  assert (CK : ct_from (hcontent_seen h' c) = put_at i b (contents h from)) by (unfold hcontent_seen, h'; cbn [ct_from]; rewrite S; apply assign_contents).
  rewrite CK. change (paid (hcontent_seen h' c)) with (paid (hcontent_seen h c)). rewrite P. pose proof (value_put i b _ _ N) as X.
  unfold is_u64 in *. intro Q. 
  apply D. symmetry. exact (same_rest _ _ _ _ X U V Q).
Qed.

(** ** Expenses *)
Lemma hexpense_at_once : forall (h : arrays (ringsig C)) now ct sigs e, hexpense_now h now ct sigs = Ok e ->
  expense_now now (Some ct) (Some (contents h sigs)) = Ok (hexpense_seen h e) /\ he_sigs e = sigs.
Proof.
  intros h now ct sigs e H. apply rbind_Ok in H as (k & E & H). injection H as <-. unfold hexpense_seen. cbn [he_im he_content he_sigs].
  destruct (expense_fields _ _ _ _ E) as (F1 & F2 & _). split; [|reflexivity]. rewrite E. f_equal. rewrite <- F2. destruct k. reflexivity.
Qed.
Lemma hexpense_changes : forall (h : arrays (ringsig C)) now ct sigs e i b s, hexpense_now h now ct sigs = Ok e ->
  nth_error (ct_from ct) i = Some b -> unlock (bl_lock b) s <> Ok tt ->
  let h' := assign h (he_sigs e) i s in
  ex_hash (hexpense_seen h' e) = ex_hash (hexpense_seen h e) /\
  Forall2 (fun b s => unlock (bl_lock b) s = Ok tt) (ct_from (ex_content (hexpense_seen h e))) (ex_sigs (hexpense_seen h e)) /\
  nth_error (ex_sigs (hexpense_seen h' e)) i = Some s /\
  forall now', expense_now now' (Some (ex_content (hexpense_seen h' e))) (Some (ex_sigs (hexpense_seen h' e))) = Err \/
               expense_now now' (Some (ex_content (hexpense_seen h' e))) (Some (ex_sigs (hexpense_seen h' e))) = Panic.
Proof.
  intros h now ct sigs e i b s H N U h'. destruct (hexpense_at_once _ _ _ _ _ H) as (E & S). destruct (expense_fields _ _ _ _ E) as (F1 & F2 & _).
  assert (A : length (contents h sigs) = length (ct_from ct) /\ Forall2 (fun b s => unlock (bl_lock b) s = Ok tt) (ct_from ct) (contents h sigs))
    by (apply (expense_accepted_iff now); eexists; exact E).
  destruct A as [L A]. split; [reflexivity|]. rewrite F1, F2. split; [exact A|].
  assert (CK : ex_sigs (hexpense_seen h' e) = put_at i s (contents h sigs)) by (unfold hexpense_seen, h'; cbn [ex_sigs]; rewrite S; apply assign_contents).
  assert (LN : i < length (contents h sigs)) by (rewrite L; apply nth_error_Some; rewrite N; discriminate).
  rewrite CK. split; [apply put_at_nth; exact LN|]. intro now'. change (ex_content (hexpense_seen h' e)) with (ex_content (hexpense_seen h e)). rewrite F1.
  destruct (expense_now now' (Some ct) (Some (put_at i s (contents h sigs)))) as [x| |] eqn:Ex; [exfalso|auto|auto].
  assert (A' : Forall2 (fun b s => unlock (bl_lock b) s = Ok tt) (ct_from ct) (put_at i s (contents h sigs))) by (apply (expense_accepted_iff now'); eexists; exact Ex).
  pose proof (put_at_nth _ i s _ LN) as N2. remember (put_at i s (contents h sigs)) as q. clear Heqq Ex CK LN. clear - A' N N2 U. revert i N N2. induction A' as [|x y xs ys Hxy A' IH]; intros [|i] N N2; cbn [nth_error] in *; try discriminate N.
  - injection N as ->. injection N2 as ->. contradiction.
  - eapply IH; eassumption.
Qed.

(** ** Blocks *)
Lemma hblock_at_once : forall (h : arrays transaction) now gen additional trx created b, hblock_now h now gen additional trx created = Ok b ->
  block_now now gen additional (contents h trx) created = Ok (hblock_seen h b) /\ hb_trx b = trx.
Proof.
  intros h now gen additional trx created b H. apply rbind_Ok in H as (k & E & H). injection H as <-. unfold hblock_seen. cbn [hb_im hb_genesis hb_additional hb_trx].
  split; [|reflexivity]. rewrite E. f_equal. apply block_now_iff in E as (g & _ & _ & ->). reflexivity.
Qed.
Lemma hmined_at_once : forall (h : arrays transaction) now b mining created m, hmined_now h now b mining created = Ok m ->
  mined_block_now now (Some (hblock_seen h b)) mining created = Ok (hmined_seen h m) /\ hm_block m = b.
Proof.
  intros h now b mining created m H. apply rbind_Ok in H as (k & E & H). injection H as <-. unfold hmined_seen. cbn [hm_im hm_block hm_mining].
  split; [|reflexivity]. rewrite E. f_equal. apply mined_block_now_iff in E as (b' & Eb & ->). injection Eb as <-. reflexivity.
Qed.
Lemma hmined_changes : forall (h : arrays transaction) now gen additional trx created b now2 mining created2 m i t old,
  hblock_now h now gen additional trx created = Ok b -> hmined_now h now2 b mining created2 = Ok m ->
  nth_error (contents h trx) i = Some old -> tx_hash t <> tx_hash old ->
  let h' := assign h (hb_trx (hm_block m)) i t in
  mb_hash (hmined_seen h' m) = mb_hash (hmined_seen h m) /\ bk_hash (mb_block (hmined_seen h' m)) = bk_hash (mb_block (hmined_seen h m)) /\
  mb_mining (hmined_seen h' m) = mb_mining (hmined_seen h m) /\
  nth_error (bk_trx (mb_block (hmined_seen h m))) i = Some old /\ nth_error (bk_trx (mb_block (hmined_seen h' m))) i = Some t /\
  (built_block (mb_block (hmined_seen h m)) -> forall x, built_block x ->
     gn_hash (bk_genesis x) = gn_hash (hb_genesis b) -> bk_additional x = hb_additional b -> bk_trx x = bk_trx (mb_block (hmined_seen h' m)) ->
     bk_hash x = bk_hash (mb_block (hmined_seen h' m)) -> sha_collision (block_text (mb_block (hmined_seen h m))) (block_text x)).
Proof.
  intros h now gen additional trx created b now2 mining created2 m i t old Hb Hm N D h'.
  destruct (hblock_at_once _ _ _ _ _ _ _ Hb) as (E & S). destruct (hmined_at_once _ _ _ _ _ _ Hm) as (E2 & S2).
  assert (LN : i < length (contents h trx)) by (apply nth_error_Some; rewrite N; discriminate).
  assert (T0 : bk_trx (mb_block (hmined_seen h m)) = contents h trx) by (unfold hmined_seen, hblock_seen; cbn [mb_block bk_trx]; rewrite S2, S; reflexivity).
  assert (T1 : bk_trx (mb_block (hmined_seen h' m)) = put_at i t (contents h trx)).
  { unfold hmined_seen, hblock_seen, h'. cbn [mb_block bk_trx]. rewrite S2, S. apply assign_contents. }
  split; [reflexivity|]. split; [reflexivity|]. split; [reflexivity|]. rewrite T0, T1. split; [exact N|]. split; [apply put_at_nth; exact LN|].
  intros B x Bx G A T Hx. change (bk_hash (mb_block (hmined_seen h' m))) with (bk_hash (mb_block (hmined_seen h m))) in Hx.
  destruct (block_hash_commits _ _ B Bx (eq_sym Hx)) as [(_ & _ & M)|X]; [exfalso|exact X].
  rewrite T0, T in M. apply D. assert (Y : nth_error (map tx_hash (contents h trx)) i = nth_error (map tx_hash (put_at i t (contents h trx))) i) by (rewrite M; reflexivity).
  rewrite !nth_error_map, N, (put_at_nth _ i t _ LN) in Y. cbn [option_map] in Y. injection Y as Y. symmetry. exact Y.
Qed.

(** ** What does not change *)
Lemma seen_stays : forall (hh : arrays hash) (hb : arrays bill) (hs : arrays (ringsig C)) (ht : arrays transaction) wh wb ws wt l c e b,
  Forall (fun w => sl_array (fst (fst w)) <> sl_array (hl_keys l)) wh -> Forall (fun w => sl_array (fst (fst w)) <> sl_array (hc_from c)) wb ->
  Forall (fun w => sl_array (fst (fst w)) <> sl_array (he_sigs e)) ws -> Forall (fun w => sl_array (fst (fst w)) <> sl_array (hb_trx b)) wt ->
  hlock_seen (assigns hh wh) l = hlock_seen hh l /\ hcontent_seen (assigns hb wb) c = hcontent_seen hb c /\
  hexpense_seen (assigns hs ws) e = hexpense_seen hs e /\ hblock_seen (assigns ht wt) b = hblock_seen ht b.
Proof.
  intros hh hb hs ht wh wb ws wt l c e b H1 H2 H3 H4. unfold hlock_seen, hcontent_seen, hexpense_seen, hblock_seen.
  rewrite !assigns_other by assumption. auto.
Qed.

(** ** Addresses and transactions *)
Lemma haddress_at_once : forall h now sender recipients subject created a, haddress_now h now sender recipients subject created = Ok a ->
  address_now now sender (contents h recipients) subject created = Ok (haddress_seen h a) /\ ha_recipients a = recipients.
Proof.
  intros h now sender recipients subject created a H. apply rbind_Ok in H as (k & E & H). injection H as <-. unfold haddress_seen. cbn [ha_im ha_sender ha_recipients ha_subject].
  split; [|reflexivity]. rewrite E. f_equal. apply address_now_iff in E as (_ & ->). reflexivity.
Qed.
Lemma haddress_changes : forall h now sender recipients subject created a i k old, haddress_now h now sender recipients subject created = Ok a ->
  nth_error (contents h recipients) i = Some old -> k <> old ->
  let h' := assign h (ha_recipients a) i k in
  ad_hash (haddress_seen h' a) = ad_hash (haddress_seen h a) /\
  nth_error (ad_recipients (haddress_seen h a)) i = Some old /\ nth_error (ad_recipients (haddress_seen h' a)) i = Some k /\
  (built_address (haddress_seen h a) -> forall x, built_address x ->
     ad_sender x = sender -> ad_subject x = subject -> ad_recipients x = ad_recipients (haddress_seen h' a) ->
     ad_hash x = ad_hash (haddress_seen h' a) -> sha_collision (address_text (haddress_seen h a)) (address_text x)).
Proof.
  intros h now sender recipients subject created a i k old H N D h'. destruct (haddress_at_once _ _ _ _ _ _ _ H) as (E & S).
  assert (LN : i < length (contents h recipients)) by (apply nth_error_Some; rewrite N; discriminate).
  assert (T0 : ad_recipients (haddress_seen h a) = contents h recipients) by (unfold haddress_seen; cbn [ad_recipients]; rewrite S; reflexivity).
  assert (T1 : ad_recipients (haddress_seen h' a) = put_at i k (contents h recipients)).
  { unfold haddress_seen, h'. cbn [ad_recipients]. rewrite S. apply assign_contents. }
  split; [reflexivity|]. rewrite T0, T1. split; [exact N|]. split; [apply put_at_nth; exact LN|].
  intros B x Bx Ss Su R Hx. change (ad_hash (haddress_seen h' a)) with (ad_hash (haddress_seen h a)) in Hx.
  assert (V : ad_sender (haddress_seen h a) = sender /\ ad_subject (haddress_seen h a) = subject).
  { apply address_now_iff in E as (_ & Ea). split; [apply (f_equal ad_sender) in Ea|apply (f_equal ad_subject) in Ea]; exact Ea. }
  destruct V as (V1 & V2).
  destruct (address_hash_commits _ _ B Bx) as [(_ & M & _)|X]; [rewrite V1, Ss; reflexivity|rewrite V2, Su; reflexivity| |symmetry; exact Hx| |exact X].
  - unfold address_parts. rewrite V1, V2, Ss, Su, T0, R, put_at_length. reflexivity.
  - exfalso. rewrite T0, R in M. apply D. assert (Y : nth_error (put_at i k (contents h recipients)) i = Some old) by (rewrite <- M; exact N).
    rewrite (put_at_nth _ i k _ LN) in Y. injection Y as Y. exact Y.
Qed.
Lemma htransaction_at_once : forall (h : arrays expense) now addr bucket fees created t, htransaction_now h now addr bucket fees created = Ok t ->
  transaction_now now addr bucket (contents h fees) created = Ok (htransaction_seen h t) /\ hx_fees t = fees.
Proof.
  intros h now addr bucket fees created t H. apply rbind_Ok in H as (k & E & H). injection H as <-. unfold htransaction_seen. cbn [hx_im hx_address hx_bucket hx_fees].
  split; [|reflexivity]. rewrite E. f_equal. apply transaction_now_iff in E as (_ & ->). reflexivity.
Qed.
Lemma htransaction_changes : forall (h : arrays expense) now addr bucket fees created t i e old, htransaction_now h now addr bucket fees created = Ok t ->
  nth_error (contents h fees) i = Some old -> ex_hash e <> ex_hash old ->
  let h' := assign h (hx_fees t) i e in
  tx_hash (htransaction_seen h' t) = tx_hash (htransaction_seen h t) /\
  nth_error (tx_fees (htransaction_seen h t)) i = Some old /\ nth_error (tx_fees (htransaction_seen h' t)) i = Some e /\
  (built_transaction (htransaction_seen h t) -> forall x, built_transaction x ->
     tx_address x = addr -> tx_bucket x = bucket -> tx_fees x = tx_fees (htransaction_seen h' t) ->
     tx_hash x = tx_hash (htransaction_seen h' t) -> sha_collision (transaction_text (htransaction_seen h t)) (transaction_text x)).
Proof.
  intros h now addr bucket fees created t i e old H N D h'. destruct (htransaction_at_once _ _ _ _ _ _ _ H) as (E & S).
  assert (LN : i < length (contents h fees)) by (apply nth_error_Some; rewrite N; discriminate).
  assert (T0 : tx_fees (htransaction_seen h t) = contents h fees) by (unfold htransaction_seen; cbn [tx_fees]; rewrite S; reflexivity).
  assert (T1 : tx_fees (htransaction_seen h' t) = put_at i e (contents h fees)).
  { unfold htransaction_seen, h'. cbn [tx_fees]. rewrite S. apply assign_contents. }
  split; [reflexivity|]. rewrite T0, T1. split; [exact N|]. split; [apply put_at_nth; exact LN|].
  intros B x Bx Ss Su R Hx. change (tx_hash (htransaction_seen h' t)) with (tx_hash (htransaction_seen h t)) in Hx.
  assert (V : tx_address (htransaction_seen h t) = addr /\ tx_bucket (htransaction_seen h t) = bucket).
  { apply transaction_now_iff in E as (_ & Ea). split; [apply (f_equal tx_address) in Ea|apply (f_equal tx_bucket) in Ea]; exact Ea. }
  destruct V as (V1 & V2).
  destruct (transaction_hash_commits _ _ B Bx) as [(_ & _ & M)|X]; [rewrite V1, Ss; reflexivity|rewrite V2, Su; reflexivity| |symmetry; exact Hx| |exact X].
  - unfold transaction_parts. rewrite V1, V2, Ss, Su, T0, R, put_at_length. reflexivity.
  - exfalso. rewrite T0, R in M. apply D. assert (Y : nth_error (map ex_hash (contents h fees)) i = nth_error (map ex_hash (put_at i e (contents h fees))) i) by (rewrite M; reflexivity).
    rewrite !nth_error_map, N, (put_at_nth _ i e _ LN) in Y. cbn [option_map] in Y. injection Y as Y. symmetry. exact Y.
Qed.
Lemma seen_stays_more : forall (hh : arrays hash) (he : arrays expense) wh we a t,
  Forall (fun w => sl_array (fst (fst w)) <> sl_array (ha_recipients a)) wh -> Forall (fun w => sl_array (fst (fst w)) <> sl_array (hx_fees t)) we ->
  haddress_seen (assigns hh wh) a = haddress_seen hh a /\ htransaction_seen (assigns he we) t = htransaction_seen he t.
Proof. intros hh he wh we a t H1 H2. unfold haddress_seen, htransaction_seen. rewrite !assigns_other by assumption. auto. Qed.
End WithCurve.
